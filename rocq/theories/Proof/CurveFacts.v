(** Curves for which every hypothesis of the point arithmetic is discharged: the modulus is prime (Proof/Primes.v), there is no
    point of order two, and for the Edwards curve the coefficient a is a square and d is not. *)
From Verif Require Import Base.Word Model.Big Model.Roms Model.Fp Model.Ecp Spec.BigSpec Spec.RomSpec Spec.FpSpec Spec.CurveSpec Spec.EcpSpec
  Proof.NumTheory Proof.Pocklington Proof.Primes.
From Coq Require Import Znumtheory.

Lemma pow3_mod x p : 0 < p -> (x * x * x) mod p = (x mod p) ^ 3 mod p.
Proof. intros H. rewrite pow_mod_l by lia. f_equal. ring. Qed.
(** x^3 = m has no solution when m^((p-1)/3) <> 1 *)
Lemma no_cube_root p m x : prime p -> 0 <= m -> m mod p <> 0 -> (p - 1) mod 3 = 0 -> powm m ((p - 1) / 3) p <> 1 -> (x * x * x) mod p <> m mod p.
Proof.
  intros Hp Hm Hm0 H3 Hn E. pose proof (prime_ge_2 p Hp). apply Hn. rewrite powm_spec; [|lia|exact Hm|apply Z.div_pos; lia].
  rewrite <- pow_mod_l; [|lia|apply Z.div_pos; lia]. rewrite <- E. rewrite pow_mod_l; [|lia|apply Z.div_pos; lia]. replace (x * x * x) with (x ^ 3) by ring. rewrite <- Z.pow_mul_r; [|lia|apply Z.div_pos; lia].
  rewrite <- (Z_div_exact_full_2 (p - 1) 3) by lia. apply fermat; [exact Hp|]. intros X. apply Hm0. rewrite <- E. rewrite Z.mul_mod, X, Z.mul_0_r by lia. apply Z.mod_0_l. lia.
Qed.
Definition no2_check (p b : Z) : bool := (0 <=? b) && (b <? p) && negb (b =? 0) && ((p - 1) mod 3 =? 0) && negb (powm (p - b) ((p - 1) / 3) p =? 1).
Lemma no2_ok p b : prime p -> no2_check p b = true -> no_order2 p 0 b.
Proof.
  intros Hp. unfold no2_check. rewrite !andb_true_iff, !negb_true_iff, Z.leb_le, Z.ltb_lt, !Z.eqb_neq, Z.eqb_eq. intros [[[[H1 H2] H3] H4] H5] x H. pose proof (prime_ge_2 p Hp).
  apply (no_cube_root p (p - b) x Hp); [lia| |exact H4|exact H5|].
  - rewrite Z.mod_small by lia. lia.
  - unfold cong in H. rewrite Z.mod_0_l in H by lia. apply mod_eq_divide; [lia|]. apply Z.mod_divide in H; [|lia]. replace (x * x * x - (p - b)) with (x * x * x + 0 * x + b - p) by ring. apply Z.divide_sub_r; [exact H|apply Z.divide_refl].
Qed.
(** Euler's criterion, the direction needed *)
Lemma non_square p d : prime p -> 2 < p -> 0 <= d -> d mod p <> 0 -> powm d ((p - 1) / 2) p <> 1 -> ~ is_square p d.
Proof.
  intros Hp H2 Hd Hd0 Hn [s Hs]. unfold cong in Hs. apply Hn. rewrite powm_spec; [|lia|exact Hd|apply Z.div_pos; lia].
  rewrite <- pow_mod_l; [|lia|apply Z.div_pos; lia]. rewrite <- Hs. rewrite pow_mod_l; [|lia|apply Z.div_pos; lia]. replace (s * s) with (s ^ 2) by ring. rewrite <- Z.pow_mul_r; [|lia|apply Z.div_pos; lia].
  assert (O : (p - 1) mod 2 = 0). { destruct (Z.eq_dec (p mod 2) 0) as [E|E]. - apply Z.mod_divide in E; [|lia]. apply prime_div_prime in E; [lia|exact prime_2|exact Hp]. - pose proof (Z.mod_pos_bound p 2 ltac:(lia)). rewrite Zminus_mod. replace (p mod 2) with 1 by lia. reflexivity. }
  rewrite <- (Z_div_exact_full_2 (p - 1) 2) by lia. apply fermat; [exact Hp|]. intros X. apply Hd0. rewrite <- Hs. rewrite Z.mul_mod, X, Z.mul_0_r by lia. apply Z.mod_0_l. lia.
Qed.

Lemma p_ed25519_64 : pmod rom_ed25519_64 = ed25519_p. Proof. vm_compute. reflexivity. Qed.
Lemma p_ed25519_32 : pmod rom_ed25519_32 = ed25519_p. Proof. vm_compute. reflexivity. Qed.
Lemma p_secp256k1_64 : pmod rom_secp256k1_64 = secp256k1_p. Proof. vm_compute. reflexivity. Qed.
Lemma p_secp256k1_32 : pmod rom_secp256k1_32 = secp256k1_p. Proof. vm_compute. reflexivity. Qed.
Lemma p_bls381_64 : pmod rom_bls381_64 = bls381_p. Proof. vm_compute. reflexivity. Qed.
Lemma p_bls381_32 : pmod rom_bls381_32 = bls381_p. Proof. vm_compute. reflexivity. Qed.
Lemma p_nist256_64 : pmod rom_nist256_64 = nist256_p. Proof. vm_compute. reflexivity. Qed.
Lemma p_nist256_32 : pmod rom_nist256_32 = nist256_p. Proof. vm_compute. reflexivity. Qed.

Lemma no2_secp256k1 : no_order2 secp256k1_p 0 7.
Proof. apply no2_ok; [exact prime_secp256k1_p|]. vm_cast_no_check (eq_refl true). Qed.
Lemma no2_bls381 : no_order2 bls381_p 0 4.
Proof. apply no2_ok; [exact prime_bls381_p|]. vm_cast_no_check (eq_refl true). Qed.
Definition ed25519_d : Z := Eval vm_compute in cB rom_ed25519_64.
Definition ns_check (p d : Z) : bool := (2 <? p) && (0 <=? d) && negb (d mod p =? 0) && negb (powm d ((p - 1) / 2) p =? 1).
Lemma ns_ok p d : prime p -> ns_check p d = true -> ~ is_square p d.
Proof.
  intros Hp. unfold ns_check. rewrite !andb_true_iff, !negb_true_iff, Z.leb_le, Z.ltb_lt, !Z.eqb_neq. intros [[[H1 H2] H3] H4]. apply non_square; assumption.
Qed.
Lemma ns_ed25519 : ~ is_square ed25519_p ed25519_d.
Proof. apply ns_ok; [exact prime_ed25519_p|]. vm_cast_no_check (eq_refl true). Qed.
Lemma sq_ed25519 : is_square ed25519_p (-1).
Proof. exists 19681161376707505956807079304988542015446066515923890162744021073123829784752. vm_compute. reflexivity. Qed.
