(** Specification vocabulary for multi-limb integers. *)
From Verif Require Export Base.Word Model.Big.

(** Value of a little-endian limb list in radix 2^B *)
Fixpoint val (B : Z) (w : list Z) : Z :=
  match w with [] => 0 | x :: t => x + 2 ^ B * val B t end.

(** all limbs but the most significant one are digits *)
Fixpoint nrm (B : Z) (w : list Z) : Prop :=
  match w with
  | [] => True
  | [x] => True
  | x :: t => 0 <= x < 2 ^ B /\ nrm B t
  end.
(** all limbs are digits *)
Definition canon (B : Z) (w : list Z) : Prop := Forall (fun x => 0 <= x < 2 ^ B) w.
Definition within (lo hi : Z) (w : list Z) : Prop := Forall (fun x => lo <= x <= hi) w.


(** Side conditions on a limb configuration; every ROM shipped meets them (Prop/BigProps.v). *)
Definition cfg_okb (c : cfg) : bool :=
  (16 <=? BASEBITS c) && (BASEBITS c + 3 <=? CHUNK c) && (CHUNK c <=? BASEBITS c + 8)
  && (1 <=? MODBYTES c) && (2 <=? NLENz c)
  && (3 * NLENz c + 4 <=? 2 ^ (2 * (CHUNK c - BASEBITS c))).
Definition cfg_ok (c : cfg) : Prop := cfg_okb c = true.

(** a well-formed Big / DBig: right length, every limb a digit *)
Definition big_wf (c : cfg) (w : list Z) : Prop := length w = NLEN c /\ canon (BASEBITS c) w.
Definition dbig_wf (c : cfg) (w : list Z) : Prop := length w = DNLEN c /\ canon (BASEBITS c) w.
(** the integer a Big denotes *)
Definition bval (c : cfg) (w : list Z) : Z := val (BASEBITS c) w.
(** capacity *)
Definition bmax (c : cfg) : Z := 2 ^ (BASEBITS c * Z.of_nat (NLEN c)).

Record cfg_facts (c : cfg) : Prop := {
  cf_B : 16 <= BASEBITS c;
  cf_C : BASEBITS c + 3 <= CHUNK c;
  cf_C2 : CHUNK c <= BASEBITS c + 8;
  cf_M : 1 <= MODBYTES c;
  cf_N : (2 <= NLEN c)%nat;
  cf_Nz : NLENz c = Z.of_nat (NLEN c);
  cf_N3 : 3 * Z.of_nat (NLEN c) + 4 <= 2 ^ (2 * (CHUNK c - BASEBITS c));
  cf_cap : 8 * MODBYTES c <= BASEBITS c * Z.of_nat (NLEN c);
  cf_cap2 : BASEBITS c * (Z.of_nat (NLEN c) - 1) < 8 * MODBYTES c }.

Lemma cfg_ok_facts c : cfg_ok c -> cfg_facts c.
Proof.
  unfold cfg_ok, cfg_okb. rewrite !andb_true_iff, !Z.leb_le.
  intros [[[[[H1 H2] H3] H4] H5] H6].
  assert (E : NLENz c = Z.of_nat (NLEN c)) by (unfold NLEN; rewrite Z2Nat.id; lia).
  assert (D := Z.div_mod (8 * MODBYTES c - 1) (BASEBITS c) ltac:(lia)).
  assert (R := Z.mod_pos_bound (8 * MODBYTES c - 1) (BASEBITS c) ltac:(lia)).
  constructor; try lia; unfold NLENz in *; nia.
Qed.
