(** Machine words, the panic monad and the bit lemmas used everywhere. *)
From Coq Require Export ZArith List Lia Bool.
Export ListNotations.
Open Scope Z_scope.

(** ** Panic monad: [None] = the Rust code panics. *)
Definition bind {A B : Type} (x : option A) (f : A -> option B) : option B :=
  match x with Some a => f a | None => None end.
Notation "x <- e ;; f" := (bind e (fun x => f))
  (at level 61, e at next level, right associativity).

(** [s] bits signed word: value in range? (Rust iN) *)
Definition in_s (bits x : Z) : bool := (- 2 ^ (bits - 1) <=? x) && (x <? 2 ^ (bits - 1)).
(** unsigned *)
Definition in_u (bits x : Z) : bool := (0 <=? x) && (x <? 2 ^ bits).
(** Checked arithmetic result (debug build panics on overflow). *)
Definition chk (bits x : Z) : option Z := if in_s bits x then Some x else None.
Definition chku (bits x : Z) : option Z := if in_u bits x then Some x else None.
(** Two's-complement wrap: result of [as iN] and of [<<] on iN. *)
Definition wrap (bits x : Z) : Z := (x + 2 ^ (bits - 1)) mod 2 ^ bits - 2 ^ (bits - 1).
(** unsigned wrap: [as uN], [<<] on uN, wrapping_* *)
Definition wrapu (bits x : Z) : Z := x mod 2 ^ bits.

Lemma bind_some {A B} (x : A) (f : A -> option B) : bind (Some x) f = f x.
Proof. reflexivity. Qed.

Lemma in_s_spec bits x : in_s bits x = true <-> - 2 ^ (bits - 1) <= x < 2 ^ (bits - 1).
Proof. unfold in_s. rewrite andb_true_iff, Z.leb_le, Z.ltb_lt. tauto. Qed.

Lemma in_u_spec bits x : in_u bits x = true <-> 0 <= x < 2 ^ bits.
Proof. unfold in_u. rewrite andb_true_iff, Z.leb_le, Z.ltb_lt. tauto. Qed.

Lemma chk_ok bits x : - 2 ^ (bits - 1) <= x < 2 ^ (bits - 1) -> chk bits x = Some x.
Proof. intros H. unfold chk. apply in_s_spec in H. rewrite H. reflexivity. Qed.

Lemma chk_inv bits x y : chk bits x = Some y -> y = x /\ - 2 ^ (bits - 1) <= x < 2 ^ (bits - 1).
Proof.
  unfold chk. destruct (in_s bits x) eqn:E; [|discriminate].
  intros H. inversion H; subst. split; [reflexivity|]. apply in_s_spec; exact E.
Qed.

Lemma chku_ok bits x : 0 <= x < 2 ^ bits -> chku bits x = Some x.
Proof. intros H. unfold chku. apply in_u_spec in H. rewrite H. reflexivity. Qed.

Lemma chku_inv bits x y : chku bits x = Some y -> y = x /\ 0 <= x < 2 ^ bits.
Proof.
  unfold chku. destruct (in_u bits x) eqn:E; [|discriminate].
  intros H. inversion H; subst. split; [reflexivity|]. apply in_u_spec; exact E.
Qed.

Lemma wrap_id bits x : 0 < bits -> - 2 ^ (bits - 1) <= x < 2 ^ (bits - 1) -> wrap bits x = x.
Proof.
  intros Hb H. unfold wrap.
  assert (E : 2 ^ bits = 2 * 2 ^ (bits - 1)).
  { replace bits with (1 + (bits - 1)) at 1 by lia. rewrite Z.pow_add_r by lia. reflexivity. }
  rewrite Z.mod_small by lia. lia.
Qed.

Lemma wrapu_id bits x : 0 <= x < 2 ^ bits -> wrapu bits x = x.
Proof. intros H. unfold wrapu. apply Z.mod_small; exact H. Qed.

(** ** Bit lemmas *)
Lemma land_mask x n : 0 <= n -> Z.land x (2 ^ n - 1) = x mod 2 ^ n.
Proof.
  intros Hn. rewrite <- Z.land_ones by exact Hn.
  rewrite Z.ones_equiv. reflexivity.
Qed.

Lemma pow2_pos n : 0 <= n -> 0 < 2 ^ n.
Proof. intros H. apply Z.pow_pos_nonneg; lia. Qed.

Lemma pow2_S n : 0 <= n -> 2 ^ (n + 1) = 2 * 2 ^ n.
Proof. intros H. rewrite Z.pow_add_r by lia. lia. Qed.

Lemma pow2_le n m : 0 <= n <= m -> 2 ^ n <= 2 ^ m.
Proof. intros H. apply Z.pow_le_mono_r; lia. Qed.

Lemma lor_disjoint a b n : 0 <= n -> 0 <= a < 2 ^ n -> Z.lor a (b * 2 ^ n) = a + b * 2 ^ n.
Proof.
  intros Hn Ha. symmetry. rewrite Z.add_nocarry_lxor.
  - rewrite Z.lxor_lor; [reflexivity|].
    apply Z.bits_inj'. intros i Hi. rewrite Z.bits_0, Z.land_spec.
    destruct (Z.ltb_spec i n) as [L|L].
    + rewrite Z.mul_pow2_bits_low by lia. apply andb_false_r.
    + replace (Z.testbit a i) with false; [reflexivity|].
      symmetry. rewrite <- (Z.mod_small a (2 ^ n)) by lia.
      apply Z.mod_pow2_bits_high. lia.
  - apply Z.bits_inj'. intros i Hi. rewrite Z.bits_0, Z.land_spec.
    destruct (Z.ltb_spec i n) as [L|L].
    + rewrite Z.mul_pow2_bits_low by lia. apply andb_false_r.
    + replace (Z.testbit a i) with false; [reflexivity|].
      symmetry. rewrite <- (Z.mod_small a (2 ^ n)) by lia.
      apply Z.mod_pow2_bits_high. lia.
Qed.

Lemma lor_disjoint' a b n : 0 <= n -> 0 <= a < 2 ^ n -> Z.lor (b * 2 ^ n) a = a + b * 2 ^ n.
Proof. intros. rewrite Z.lor_comm. apply lor_disjoint; assumption. Qed.

Lemma lxor_range a b n : 0 <= n -> 0 <= a < 2 ^ n -> 0 <= b < 2 ^ n -> 0 <= Z.lxor a b < 2 ^ n.
Proof.
  intros Hn Ha Hb. split.
  - apply Z.lxor_nonneg. lia.
  - assert (E : Z.lxor a b = Z.lxor a b mod 2 ^ n).
    { apply Z.bits_inj'. intros i Hi.
      destruct (Z.ltb_spec i n) as [L|L].
      - rewrite Z.mod_pow2_bits_low by lia. reflexivity.
      - rewrite Z.mod_pow2_bits_high by lia. rewrite Z.lxor_spec.
        rewrite <- (Z.mod_small a (2 ^ n)), <- (Z.mod_small b (2 ^ n)) by lia.
        rewrite !Z.mod_pow2_bits_high by lia. reflexivity. }
    rewrite E. apply Z.mod_pos_bound. apply pow2_pos; lia.
Qed.

Lemma land_range a b n : 0 <= n -> 0 <= a < 2 ^ n -> 0 <= b -> 0 <= Z.land a b < 2 ^ n.
Proof.
  intros Hn Ha Hb. split.
  - apply Z.land_nonneg. lia.
  - assert (E : Z.land a b = Z.land a b mod 2 ^ n).
    { apply Z.bits_inj'. intros i Hi.
      destruct (Z.ltb_spec i n) as [L|L].
      - rewrite Z.mod_pow2_bits_low by lia. reflexivity.
      - rewrite Z.mod_pow2_bits_high by lia. rewrite Z.land_spec.
        rewrite <- (Z.mod_small a (2 ^ n)) by lia.
        rewrite !Z.mod_pow2_bits_high by lia. reflexivity. }
    rewrite E. apply Z.mod_pos_bound. apply pow2_pos; lia.
Qed.

Lemma lor_range a b n : 0 <= n -> 0 <= a < 2 ^ n -> 0 <= b < 2 ^ n -> 0 <= Z.lor a b < 2 ^ n.
Proof.
  intros Hn Ha Hb. split.
  - apply Z.lor_nonneg. lia.
  - assert (E : Z.lor a b = Z.lor a b mod 2 ^ n).
    { apply Z.bits_inj'. intros i Hi.
      destruct (Z.ltb_spec i n) as [L|L].
      - rewrite Z.mod_pow2_bits_low by lia. reflexivity.
      - rewrite Z.mod_pow2_bits_high by lia. rewrite Z.lor_spec.
        rewrite <- (Z.mod_small a (2 ^ n)), <- (Z.mod_small b (2 ^ n)) by lia.
        rewrite !Z.mod_pow2_bits_high by lia. reflexivity. }
    rewrite E. apply Z.mod_pos_bound. apply pow2_pos; lia.
Qed.
