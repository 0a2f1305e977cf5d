(** Elementary number theory over Z: Fermat's little theorem, cancellation. *)
From Coq Require Import ZArith List Lia Znumtheory Permutation Zpow_facts.
Import ListNotations.
Open Scope Z_scope.

Lemma mod_eq_divide a b p : 0 < p -> (a mod p = b mod p <-> (p | a - b)).
Proof.
  intros Hp. split.
  - intros H. apply Z.mod_divide; [lia|]. rewrite Zminus_mod, H, Z.sub_diag. apply Z.mod_0_l. lia.
  - intros [k E]. replace a with (b + k * p) by lia. apply Z.mod_add. lia.
Qed.
Lemma mod_cancel a b k p : 0 < p -> Z.gcd k p = 1 -> (a * k) mod p = (b * k) mod p -> a mod p = b mod p.
Proof.
  intros Hp Hg H. apply mod_eq_divide; [exact Hp|]. apply mod_eq_divide in H; [|exact Hp].
  replace (a * k - b * k) with (k * (a - b)) in H by ring.
  apply (Gauss p k (a - b) H). apply Zgcd_1_rel_prime. rewrite Z.gcd_comm. exact Hg.
Qed.
Lemma gcd_pow2_odd k p : 0 <= k -> Z.odd p = true -> Z.gcd (2 ^ k) p = 1.
Proof.
  intros Hk Ho. apply Zgcd_1_rel_prime. apply rel_prime_sym. apply rel_prime_Zpower_r; [exact Hk|].
  apply Zgcd_1_rel_prime. apply Zodd_ex_iff in Ho || apply Z.odd_spec in Ho. destruct Ho as [m E].
  assert (G : (Z.gcd p 2 | 1)).
  { replace 1 with (p + 2 * (- m)) by lia. apply Z.divide_add_r; [apply Z.gcd_divide_l|]. apply Z.divide_mul_l. apply Z.gcd_divide_r. }
  pose proof (Z.gcd_nonneg p 2). apply Z.divide_1_r_nonneg in G; assumption.
Qed.

(** residues 1..n *)
Definition zrange (n : nat) : list Z := map Z.of_nat (seq 1 n).
Lemma in_zrange n x : In x (zrange n) <-> 1 <= x <= Z.of_nat n.
Proof.
  unfold zrange. rewrite in_map_iff. split.
  - intros [k [<- Hk]]. apply in_seq in Hk. lia.
  - intros H. exists (Z.to_nat x). split; [lia|]. apply in_seq. lia.
Qed.
Lemma nodup_zrange n : NoDup (zrange n).
Proof. unfold zrange. apply FinFun.Injective_map_NoDup; [intros x y; lia|apply seq_NoDup]. Qed.
Definition zprod (l : list Z) : Z := fold_right Z.mul 1 l.
Lemma zprod_perm l l' : Permutation l l' -> zprod l = zprod l'.
Proof. unfold zprod. induction 1; cbn [fold_right]; try lia. Qed.
Lemma zprod_map_mod a p l : 0 < p -> zprod (map (fun x => (a * x) mod p) l) mod p = (a ^ Z.of_nat (length l) * zprod l) mod p.
Proof.
  intros Hp. induction l as [|x l IH]; [reflexivity|].
  cbn [map zprod fold_right]. change (fold_right Z.mul 1 (map (fun x => (a * x) mod p) l)) with (zprod (map (fun x => (a * x) mod p) l)).
  change (fold_right Z.mul 1 l) with (zprod l).
  rewrite <- Z.mul_mod_idemp_r, IH, Z.mul_mod_idemp_r, Z.mul_mod_idemp_l by lia.
  cbn [length]. rewrite Nat2Z.inj_succ, Z.pow_succ_r by lia. f_equal. ring.
Qed.
Lemma prime_coprime p x : prime p -> x mod p <> 0 -> Z.gcd x p = 1.
Proof.
  intros Hp Hx. pose proof (prime_ge_2 p Hp). apply Zgcd_1_rel_prime. apply rel_prime_sym. apply prime_rel_prime; [exact Hp|].
  intros D. apply Hx. apply Z.mod_divide; [lia|exact D].
Qed.
Lemma zprod_range_coprime p n : prime p -> Z.of_nat n < p -> Z.gcd (zprod (zrange n)) p = 1.
Proof.
  intros Hp Hn. pose proof (prime_ge_2 p Hp).
  assert (H1 : forall l, (forall x, In x l -> x mod p <> 0) -> rel_prime (zprod l) p).
  { induction l as [|x l IH]; intros Hl.
    - cbn. apply Zgcd_1_rel_prime. apply Z.gcd_1_l.
    - cbn [zprod fold_right]. apply rel_prime_sym, rel_prime_mult; apply rel_prime_sym.
      + apply Zgcd_1_rel_prime. apply prime_coprime; [exact Hp|]. apply Hl. left; reflexivity.
      + apply IH. intros y Hy. apply Hl. right; exact Hy. }
  apply Zgcd_1_rel_prime, H1. intros x Hx. apply in_zrange in Hx. rewrite Z.mod_small by lia. lia.
Qed.

Theorem fermat p a : prime p -> a mod p <> 0 -> (a ^ (p - 1)) mod p = 1.
Proof.
  intros Hp Ha. pose proof (prime_ge_2 p Hp). pose proof (prime_coprime p a Hp Ha) as Hg.
  set (n := Z.to_nat (p - 1)). assert (En : Z.of_nat n = p - 1) by (unfold n; lia).
  set (l := zrange n). set (f := fun x => (a * x) mod p).
  assert (P : Permutation (map f l) l).
  { apply NoDup_Permutation_bis.
    - assert (G : forall l', NoDup l' -> (forall x, In x l' -> 1 <= x <= p - 1) -> NoDup (map f l')).
      { induction l' as [|x l' IH]; intros N B; [constructor|]. inversion N; subst. cbn [map]. constructor.
        - intros I. apply in_map_iff in I. destruct I as [y [E I]]. unfold f in E.
          assert (x = y); [|subst; contradiction].
          assert (Ex : (x * a) mod p = (y * a) mod p) by (rewrite (Z.mul_comm x), (Z.mul_comm y); symmetry; exact E).
          apply mod_cancel in Ex; [|lia|exact Hg]. pose proof (B x (or_introl eq_refl)). pose proof (B y (or_intror I)).
          rewrite !Z.mod_small in Ex by lia. exact Ex.
        - apply IH; [assumption|]. intros z Hz. apply B. right; exact Hz. }
      apply G; [apply nodup_zrange|]. intros x Hx. apply in_zrange in Hx. lia.
    - rewrite map_length. apply le_n.
    - intros y Hy. apply in_map_iff in Hy. destruct Hy as [x [<- Hx]]. apply in_zrange in Hx. apply in_zrange. unfold f.
      assert ((a * x) mod p <> 0).
      { intros E. assert (Ez : (x * a) mod p = (0 * a) mod p) by (rewrite (Z.mul_comm x), E; reflexivity).
        apply mod_cancel in Ez; [|lia|exact Hg]. rewrite Z.mod_small, Z.mod_0_l in Ez by lia. lia. }
      pose proof (Z.mod_pos_bound (a * x) p ltac:(lia)). lia. }
  pose proof (zprod_map_mod a p l ltac:(lia)) as E. fold f in E. rewrite (zprod_perm _ _ P) in E.
  replace (Z.of_nat (length l)) with (p - 1) in E by (unfold l, zrange; rewrite map_length, seq_length; lia).
  rewrite <- (Z.mul_1_l (zprod l)) in E at 1. symmetry in E.
  apply mod_cancel in E; [|lia|apply zprod_range_coprime; [exact Hp|lia]]. rewrite E. apply Z.mod_1_l. lia.
Qed.

Lemma pow_mod_l a n p : 0 < p -> 0 <= n -> ((a mod p) ^ n) mod p = (a ^ n) mod p.
Proof. intros. symmetry. apply Zpower_mod. lia. Qed.
Lemma fermat_inv p a : prime p -> a mod p <> 0 -> (a * a ^ (p - 2)) mod p = 1.
Proof.
  intros Hp Ha. pose proof (prime_ge_2 p Hp). rewrite <- Z.pow_succ_r by lia. replace (Z.succ (p - 2)) with (p - 1) by lia. apply fermat; assumption.
Qed.
