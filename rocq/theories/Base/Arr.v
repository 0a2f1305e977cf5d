(** Array helpers and build profiles used by the byte-oriented modules (ciphers, hashes). *)
From Verif Require Import Base.Word.

(** Debug builds panic on unsigned overflow, release builds wrap. *)
Inductive build := Debug | Release.
(** [x + y] on uN *)
Definition uadd (b : build) (bits x y : Z) : option Z :=
  match b with Debug => chku bits (x + y) | Release => Some (wrapu bits (x + y)) end.

(** [a[i]] for an index known to be in range *)
Definition at_ (l : list Z) (i : nat) : Z := nth i l 0.
(** [a[i] = v] *)
Fixpoint aset {A : Type} (l : list A) (i : nat) (v : A) : list A :=
  match l, i with
  | [], _ => []
  | _ :: t, O => v :: t
  | x :: t, S j => x :: aset t j v
  end.
Lemma aset_length {A} (l : list A) : forall i v, length (aset l i v) = length l.
Proof. induction l as [|x l IH]; intros [|i] v; cbn; auto. Qed.
Lemma nth_aset_eq {A} (l : list A) : forall i v d, (i < length l)%nat -> nth i (aset l i v) d = v.
Proof. induction l as [|x l IH]; intros [|i] v d H; cbn in *; try lia; [reflexivity|]. apply IH. lia. Qed.
Lemma nth_aset_neq {A} (l : list A) : forall i j v d, i <> j -> nth i (aset l j v) d = nth i l d.
Proof.
  induction l as [|x l IH]; intros [|i] [|j] v d H; cbn; try congruence. apply IH. congruence.
Qed.
(** pointwise exclusive or *)
Fixpoint xorl (a b : list Z) : list Z :=
  match a, b with x :: a', y :: b' => Z.lxor x y :: xorl a' b' | _, _ => [] end.
Lemma xorl_length a : forall b, length (xorl a b) = Nat.min (length a) (length b).
Proof. induction a as [|x a IH]; intros [|y b]; cbn; auto. Qed.
Lemma xorl_invol a : forall b, (length a <= length b)%nat -> xorl (xorl a b) b = a.
Proof.
  induction a as [|x a IH]; intros [|y b] H; cbn in *; try lia; auto.
  rewrite IH by lia. rewrite Z.lxor_assoc, Z.lxor_nilpotent, Z.lxor_0_r. reflexivity.
Qed.
Lemma xorl_assoc a : forall b c, xorl (xorl a b) c = xorl a (xorl b c).
Proof. induction a as [|x a IH]; intros [|y b] [|z c]; cbn [xorl]; try reflexivity. rewrite Z.lxor_assoc, IH. reflexivity. Qed.
Lemma xorl_comm a : forall b, xorl a b = xorl b a.
Proof. induction a as [|x a IH]; intros [|y b]; cbn [xorl]; try reflexivity. rewrite Z.lxor_comm, IH. reflexivity. Qed.
Lemma nth_xorl a : forall b i, (i < length a)%nat -> (i < length b)%nat -> nth i (xorl a b) 0 = Z.lxor (nth i a 0) (nth i b 0).
Proof. induction a as [|x a IH]; intros [|y b] [|i] H1 H2; cbn in *; try lia; auto. apply IH; lia. Qed.
Lemma nth_ext_Z (a b : list Z) : length a = length b -> (forall i, (i < length a)%nat -> nth i a 0 = nth i b 0) -> a = b.
Proof. intros H1 H2. apply (nth_ext a b 0 0); assumption. Qed.

Lemma nth_map_seq {A} (f : nat -> A) a n i d : (i < n)%nat -> nth i (map f (seq a n)) d = f (a + i)%nat.
Proof.
  intros H. rewrite (nth_indep _ d (f 0%nat)) by (rewrite map_length, seq_length; exact H). rewrite (map_nth f). rewrite seq_nth by exact H. reflexivity.
Qed.
(** ** finite sweeps over bytes *)
Definition byte_list : list Z := map Z.of_nat (seq 0 256).
Lemma byte_sweep (P : Z -> bool) : forallb P byte_list = true -> forall x, 0 <= x < 256 -> P x = true.
Proof.
  intros H x Hx. rewrite forallb_forall in H. apply H. unfold byte_list. apply in_map_iff. exists (Z.to_nat x).
  split; [lia|]. apply in_seq. lia.
Qed.
Lemma byte_sweep2 (P : Z -> Z -> bool) : forallb (fun x => forallb (P x) byte_list) byte_list = true -> forall x y, 0 <= x < 256 -> 0 <= y < 256 -> P x y = true.
Proof. intros H x y Hx Hy. pose proof (byte_sweep _ H x Hx) as H1. cbv beta in H1. exact (byte_sweep _ H1 y Hy). Qed.

(** n bytes *)
Definition byte_ok (x : Z) : Prop := 0 <= x < 256.
Lemma byte_xor x y : byte_ok x -> byte_ok y -> byte_ok (Z.lxor x y).
Proof. unfold byte_ok. change 256 with (2 ^ 8). apply lxor_range. lia. Qed.
Lemma Forall_nth_ok {A} (P : A -> Prop) l i d : Forall P l -> P d -> P (nth i l d).
Proof. intros H Hd. revert i. induction H as [|x l Hx H IH]; intros [|i]; cbn; auto. Qed.
Lemma xorl_bytes a : forall b, Forall byte_ok a -> Forall byte_ok b -> Forall byte_ok (xorl a b).
Proof. induction a as [|x a IH]; intros [|y b] Ha Hb; cbn; constructor; inversion Ha; inversion Hb; subst; [apply byte_xor|apply IH]; assumption. Qed.

(** ** splitting words into low part and high part *)
Lemma lxor_split n a b a' b' : 0 <= n -> 0 <= a < 2 ^ n -> 0 <= a' < 2 ^ n ->
  Z.lxor (a + 2 ^ n * b) (a' + 2 ^ n * b') = Z.lxor a a' + 2 ^ n * Z.lxor b b'.
Proof.
  intros Hn Ha Ha'. rewrite !(Z.mul_comm (2 ^ n)).
  rewrite <- !lor_disjoint by (try assumption; apply lxor_range; assumption).
  apply Z.bits_inj'. intros i Hi. rewrite !Z.lxor_spec, !Z.lor_spec, Z.lxor_spec.
  destruct (Z.ltb_spec i n) as [L|L].
  - rewrite !Z.mul_pow2_bits_low by lia. rewrite !orb_false_r. reflexivity.
  - rewrite !Z.mul_pow2_bits by lia. rewrite Z.lxor_spec.
    rewrite <- (Z.mod_small a (2 ^ n)), <- (Z.mod_small a' (2 ^ n)) by lia. rewrite !Z.mod_pow2_bits_high by lia. reflexivity.
Qed.
