(** A boolean checker for the ROM consistency conditions of Spec/RomSpec.v, and its soundness. *)
From Verif Require Import Base.Word Model.Big Model.Roms Spec.BigSpec Spec.RomSpec.

Definition canonb (B : Z) (w : list Z) : bool := forallb (fun x => (0 <=? x) && (x <? 2 ^ B)) w.
Definition big_wfb (c : cfg) (w : list Z) : bool := Nat.eqb (length w) (NLEN c) && canonb (BASEBITS c) w.
Lemma big_wfb_ok c w : big_wfb c w = true -> big_wf c w.
Proof.
  unfold big_wfb, canonb. rewrite andb_true_iff, Nat.eqb_eq, forallb_forall. intros [H1 H2]. split; [exact H1|].
  apply Forall_forall. intros x Hx. specialize (H2 x Hx). rewrite andb_true_iff, Z.leb_le, Z.ltb_lt in H2. exact H2.
Qed.

Definition checkb (r : rom) : bool :=
  let c := r_cfg r in let p := bval c (r_MODULUS r) in
  let x := bval c (r_GX r) in let y := bval c (r_GY r) in let a := r_CURVE_A r in let b := bval c (r_CURVE_B r) in
  (cfg_okb c && big_wfb c (r_MODULUS r) && big_wfb c (r_R2MODP r) && big_wfb c (r_CURVE_B r) && big_wfb c (r_ORDER r)
     && big_wfb c (r_GX r) && big_wfb c (r_GY r) && big_wfb c (r_COF r))
  && (Z.odd p && (2 ^ (r_MODBITS r - 1) <=? p) && (p <? 2 ^ r_MODBITS r) && (8 * MODBYTES c - 8 <? r_MODBITS r) && (r_MODBITS r <=? 8 * MODBYTES c))
  && (match r_MODTYPE r with
      | NotSpecial => (bval c (r_R2MODP r) =? (bmax c * bmax c) mod p) && ((get (r_MODULUS r) 0 * r_MCONST r + 1) mod 2 ^ BASEBITS c =? 0)
                      && (0 <? r_MCONST r) && (r_MCONST r <? 2 ^ BASEBITS c)
      | PseudoMersenne => (p =? 2 ^ r_MODBITS r - r_MCONST r) && (0 <? r_MCONST r) && (r_MCONST r <? 2 ^ BASEBITS c)
      | GeneralisedMersenne => p =? 2 ^ r_MODBITS r - 2 ^ (r_MODBITS r / 2) - 1
      | MontgomeryFriendly => false
      end)
  && (r_SH r =? Z.min (BASEBITS c * Z.of_nat (NLEN c) - r_MODBITS r) (if CHUNK c =? 32 then 14 else 1000))
  && (match r_CURVETYPE r with
      | Weierstrass => (y * y) mod p =? (x * x * x + a * x + b) mod p
      | Edwards => (a * (x * x) + y * y) mod p =? (1 + b * (x * x) * (y * y)) mod p
      | Montgomery => true
      end)
  && ((r_CURVE_B_I r =? 0) || (r_CURVE_B_I r mod p =? b mod p))
  && ((x <? p) && (y <? p) && (b <? p) && (bval c (r_R2MODP r) <? p) && (1 <? bval c (r_ORDER r)))
  && (Bool.eqb (r_MOD8 r =? 5) (p mod 8 =? 5) && ((p mod 8 =? 5) || (p mod 4 =? 3))).

Lemma checkb_ok r : checkb r = true -> rom_ok r.
Proof.
  unfold checkb. rewrite !andb_true_iff.
  intros [[[[[[[H1 H2] H3] H4] H5] H6] H7] H8].
  destruct H1 as [[[[[[[A1 A2] A3] A4] A5] A6] A7] A8].
  destruct H2 as [[[[B1 B2] B3] B4] B5]. destruct H7 as [[[[D1 D2] D3] D4] D5]. destruct H8 as [E1 E2].
  unfold rom_ok. split.
  { split; [exact A1|]. repeat split; apply big_wfb_ok; assumption. }
  split. { split; [exact B1|]. apply Z.leb_le in B2, B5. apply Z.ltb_lt in B3, B4. auto. }
  split.
  { unfold rom_red. destruct (r_MODTYPE r).
    - rewrite !andb_true_iff, !Z.eqb_eq, !Z.ltb_lt in H3. tauto.
    - rewrite !andb_true_iff, !Z.eqb_eq, !Z.ltb_lt in H3. tauto.
    - discriminate.
    - apply Z.eqb_eq. exact H3. }
  split. { apply Z.eqb_eq. exact H4. }
  split. { unfold rom_gen. destruct (r_CURVETYPE r); [apply Z.eqb_eq; exact H5|apply Z.eqb_eq; exact H5|exact I]. }
  split. { unfold rom_small_b. apply orb_true_iff in H6. rewrite !Z.eqb_eq in H6. exact H6. }
  split. { unfold rom_lt. rewrite Z.ltb_lt in *. auto. }
  unfold rom_mod8_weak. apply eqb_prop in E1. split.
  - split; intros E; apply Z.eqb_eq; [rewrite <- E1|rewrite E1]; apply Z.eqb_eq; exact E.
  - apply orb_true_iff in E2. rewrite !Z.eqb_eq in E2. exact E2.
Qed.

