(** Jacobi symbol through Gauss's lemma (Zolotarev/Schering style, odd composite moduli
    included), multiplicativity, the supplementary law for 2 and quadratic reciprocity; for a
    prime modulus the symbol is the Legendre symbol. *)
From Coq Require Import ZArith List Lia Znumtheory Permutation Zpow_facts Bool.
From Verif Require Import Proof.NumTheory.
Import ListNotations.
Open Scope Z_scope.

Definition sgn (m : Z) : Z := if Z.even m then 1 else -1.
Lemma sgn_add a b : sgn (a + b) = sgn a * sgn b.
Proof. unfold sgn. rewrite Z.even_add. destruct (Z.even a), (Z.even b); reflexivity. Qed.
Lemma sgn_ext a b : (2 | a - b) -> sgn a = sgn b.
Proof. intros [k E]. unfold sgn. replace a with (b + 2 * k) by lia. rewrite Z.even_add, Z.even_mul. cbn. destruct (Z.even b); reflexivity. Qed.
Lemma sgn_sq a : sgn a * sgn a = 1.
Proof. unfold sgn. destruct (Z.even a); reflexivity. Qed.
Lemma sgn_cases a : sgn a = 1 \/ sgn a = -1.
Proof. unfold sgn. destruct (Z.even a); auto. Qed.

Definition zsum (l : list Z) : Z := fold_right Z.add 0 l.
Lemma zsum_perm l l' : Permutation l l' -> zsum l = zsum l'.
Proof. unfold zsum. induction 1; cbn [fold_right]; try lia. Qed.
Lemma zsum_add (f g : Z -> Z) l : zsum (map (fun x => f x + g x) l) = zsum (map f l) + zsum (map g l).
Proof. induction l; cbn [map zsum fold_right] in *; unfold zsum in *; lia. Qed.
Lemma zsum_scal a (f : Z -> Z) l : zsum (map (fun x => a * f x) l) = a * zsum (map f l).
Proof. induction l; cbn [map zsum fold_right] in *; unfold zsum in *; lia. Qed.
Lemma zsum_ext (f g : Z -> Z) l : (forall x, In x l -> f x = g x) -> zsum (map f l) = zsum (map g l).
Proof. intros H. f_equal. apply map_ext_in. exact H. Qed.
Lemma zsum_swap (f : Z -> Z -> Z) l l' :
  zsum (map (fun x => zsum (map (fun y => f x y) l')) l) = zsum (map (fun y => zsum (map (fun x => f x y) l)) l').
Proof.
  induction l as [|x l IH]; cbn [map zsum fold_right].
  - induction l'; cbn [map zsum fold_right] in *; [reflexivity|]. unfold zsum in *. rewrite <- IHl'. reflexivity.
  - fold (zsum (map (fun x0 => zsum (map (fun y => f x0 y) l')) l)). rewrite IH.
    rewrite <- zsum_add. reflexivity.
Qed.
Lemma zsum_const c l : zsum (map (fun _ : Z => c) l) = c * Z.of_nat (length l).
Proof. induction l; cbn [map zsum fold_right length] in *; unfold zsum in *; [lia|]. rewrite IHl. lia. Qed.
Lemma zsum_cong (f g : Z -> Z) l m : (forall x, In x l -> (m | f x - g x)) -> (m | zsum (map f l) - zsum (map g l)).
Proof.
  intros H. induction l as [|x l IH]; cbn [map zsum fold_right]; [exists 0; lia|].
  fold (zsum (map f l)) (zsum (map g l)).
  replace (f x + zsum (map f l) - (g x + zsum (map g l))) with ((f x - g x) + (zsum (map f l) - zsum (map g l))) by ring.
  apply Z.divide_add_r; [apply H; left; reflexivity|apply IH; intros y Hy; apply H; right; exact Hy].
Qed.
Lemma zprod_mul (f g : Z -> Z) l : zprod (map (fun x => f x * g x) l) = zprod (map f l) * zprod (map g l).
Proof. induction l; cbn [map zprod fold_right] in *; unfold zprod in *; [lia|]. rewrite IHl. ring. Qed.
Lemma zprod_ext (f g : Z -> Z) l : (forall x, In x l -> f x = g x) -> zprod (map f l) = zprod (map g l).
Proof. intros H. f_equal. apply map_ext_in. exact H. Qed.
Lemma zprod_cong (f g : Z -> Z) l m : (forall x, In x l -> (m | f x - g x)) -> (m | zprod (map f l) - zprod (map g l)).
Proof.
  intros H. induction l as [|x l IH]; cbn [map zprod fold_right]; [exists 0; lia|].
  fold (zprod (map f l)) (zprod (map g l)).
  replace (f x * zprod (map f l) - g x * zprod (map g l))
    with ((f x - g x) * zprod (map f l) + g x * (zprod (map f l) - zprod (map g l))) by ring.
  apply Z.divide_add_r; [apply Z.divide_mul_l, H; left; reflexivity|apply Z.divide_mul_r, IH; intros y Hy; apply H; right; exact Hy].
Qed.
Lemma zprod_sgn (f : Z -> Z) l : zprod (map (fun x => sgn (f x)) l) = sgn (zsum (map f l)).
Proof. induction l as [|x l IH]; cbn [map zprod zsum fold_right]; [reflexivity|]. fold (zsum (map f l)). rewrite sgn_add, <- IH. reflexivity. Qed.
Lemma zrange_len n : length (zrange n) = n.
Proof. unfold zrange. rewrite map_length, seq_length. reflexivity. Qed.
Lemma zrange_S n : zrange (S n) = zrange n ++ [Z.of_nat (S n)].
Proof. unfold zrange. rewrite seq_S, map_app. reflexivity. Qed.
Lemma zsum_app l l' : zsum (l ++ l') = zsum l + zsum l'.
Proof. induction l; cbn [app zsum fold_right]; unfold zsum in *; lia. Qed.
Lemma zsum_range n : 2 * zsum (zrange n) = Z.of_nat n * (Z.of_nat n + 1).
Proof. induction n; [reflexivity|]. rewrite zrange_S, zsum_app. cbn [zsum fold_right]. rewrite Nat2Z.inj_succ. lia. Qed.

Definition hlf (n : Z) : nat := Z.to_nat (n / 2).
Definition eps (a n k : Z) : Z := if 2 * ((a * k) mod n) <? n then 1 else -1.
Definition epi (a n k : Z) : Z := let r := (a * k) mod n in if 2 * r <? n then r else n - r.
(** the symbol (a / n), for a prime to n *)
Definition J (a n : Z) : Z := zprod (map (eps a n) (zrange (hlf n))).

Lemma eps_cases a n k : eps a n k = 1 \/ eps a n k = -1.
Proof. unfold eps. destruct (_ <? _); auto. Qed.
Lemma J_cases a n : J a n = 1 \/ J a n = -1.
Proof.
  unfold J. induction (zrange (hlf n)) as [|k l IH]; [left; reflexivity|]. cbn [map zprod fold_right].
  fold (zprod (map (eps a n) l)). destruct (eps_cases a n k) as [-> | ->], IH as [-> | ->]; auto.
Qed.
Lemma J_sq a n : J a n * J a n = 1.
Proof. destruct (J_cases a n) as [-> | ->]; reflexivity. Qed.
Lemma J_mod a b n : a mod n = b mod n -> J a n = J b n.
Proof.
  intros E. unfold J. apply zprod_ext. intros k _. unfold eps.
  destruct (Z.eq_dec n 0) as [->|Hn]; [rewrite !Zmod_0_r in *; subst; reflexivity|].
  rewrite <- (Z.mul_mod_idemp_l a), E, Z.mul_mod_idemp_l by exact Hn. reflexivity.
Qed.

Section Odd.
Variable n : Z.
Hypothesis Hn0 : 0 < n.
Hypothesis Hodd : Z.odd n = true.
Let h := hlf n.
Let Hh : n = 2 * Z.of_nat h + 1.
Proof.
  unfold h, hlf. pose proof (Z.div_mod n 2 ltac:(lia)). rewrite Zmod_odd, Hodd in H.
  assert (0 <= n / 2) by (apply Z.div_pos; lia). lia.
Qed.

Lemma eps_epi a k : (n | a * k - eps a n k * epi a n k).
Proof.
  unfold eps, epi. pose proof (Z.div_mod (a * k) n ltac:(lia)) as E.
  destruct (_ <? _).
  - exists (a * k / n). lia.
  - exists (a * k / n + 1). lia.
Qed.
Lemma pm_unique s u s' u' : (s = 1 \/ s = -1) -> (s' = 1 \/ s' = -1) ->
  1 <= u <= Z.of_nat h -> 1 <= u' <= Z.of_nat h -> (n | s * u - s' * u') -> s = s' /\ u = u'.
Proof.
  intros Hs Hs' Hu Hu' [q E].
  assert (q = 0) by (destruct Hs, Hs'; subst s s'; assert (-1 < q < 1) by (split; [apply Z.nle_gt|apply Z.nle_gt]; intros C; assert (n <= Z.abs (q * n)) by (rewrite Z.abs_mul; rewrite (Z.abs_eq n) by lia; assert (1 <= Z.abs q) by lia; apply Z.le_trans with (1 * n); [lia|apply Z.mul_le_mono_nonneg_r; lia]); lia); lia).
  subst q. destruct Hs, Hs'; subst s s'; lia.
Qed.
Lemma epi_range a k : Z.gcd a n = 1 -> 1 <= k <= Z.of_nat h -> 1 <= epi a n k <= Z.of_nat h.
Proof.
  intros Hg Hk. unfold epi. pose proof (Z.mod_pos_bound (a * k) n Hn0) as B.
  assert ((a * k) mod n <> 0).
  { intros E. assert (Ez : (k * a) mod n = (0 * a) mod n) by (rewrite (Z.mul_comm k), E; symmetry; apply Z.mod_0_l; lia).
    apply mod_cancel in Ez; [|lia|exact Hg]. rewrite Z.mod_small, Z.mod_0_l in Ez by lia. lia. }
  destruct (Z.ltb_spec (2 * ((a * k) mod n)) n); lia.
Qed.
Lemma epi_inj a k k' : Z.gcd a n = 1 -> 1 <= k <= Z.of_nat h -> 1 <= k' <= Z.of_nat h ->
  epi a n k = epi a n k' -> k = k'.
Proof.
  intros Hg Hk Hk' E.
  assert (D : (n | a * (1 * k - (eps a n k * eps a n k') * k'))).
  { destruct (eps_epi a k) as [q Eq]. destruct (eps_epi a k') as [q' Eq']. rewrite E in Eq.
    exists (q - eps a n k * eps a n k' * q'). 
    destruct (eps_cases a n k) as [H1|H1], (eps_cases a n k') as [H2|H2]; rewrite H1, H2 in *; lia. }
  apply Gauss in D; [|apply Zgcd_1_rel_prime; rewrite Z.gcd_comm; exact Hg].
  apply (pm_unique 1 k (eps a n k * eps a n k') k'); auto.
  destruct (eps_cases a n k) as [-> | ->], (eps_cases a n k') as [-> | ->]; auto.
Qed.
Lemma epi_perm a : Z.gcd a n = 1 -> Permutation (map (epi a n) (zrange h)) (zrange h).
Proof.
  intros Hg. apply NoDup_Permutation_bis.
  - assert (G : forall l', NoDup l' -> (forall x, In x l' -> 1 <= x <= Z.of_nat h) -> NoDup (map (epi a n) l')).
    { induction l' as [|x l' IH]; intros N B; [constructor|]. apply NoDup_cons_iff in N; destruct N as [N1 N2]. cbn [map]. constructor.
      - intros I. apply in_map_iff in I. destruct I as [y [E I]].
        assert (y = x); [|subst y; contradiction]. apply (epi_inj a); auto; apply B; [right|left]; auto.
      - apply IH; [assumption|]. intros z Hz. apply B. right; exact Hz. }
    apply G; [apply nodup_zrange|]. intros x Hx. apply in_zrange in Hx. exact Hx.
  - rewrite map_length. apply le_n.
  - intros y Hy. apply in_map_iff in Hy. destruct Hy as [x [<- Hx]]. apply in_zrange in Hx. apply in_zrange.
    apply epi_range; auto.
Qed.
(** multiplicativity in the numerator *)
Lemma J_mul a b : Z.gcd a n = 1 -> Z.gcd b n = 1 -> J (a * b) n = J a n * J b n.
Proof.
  intros Ha Hb. unfold J. fold h.
  transitivity (zprod (map (fun k => eps a n (epi b n k) * eps b n k) (zrange h))).
  - apply zprod_ext. intros k Hk. apply in_zrange in Hk.
    assert (Hab : Z.gcd (a * b) n = 1).
    { apply Zgcd_1_rel_prime, rel_prime_sym, rel_prime_mult; apply rel_prime_sym, Zgcd_1_rel_prime; assumption. }
    pose proof (epi_range b k Hb Hk) as Hpb.
    apply (pm_unique (eps (a * b) n k) (epi (a * b) n k) (eps a n (epi b n k) * eps b n k) (epi a n (epi b n k))).
    + apply eps_cases.
    + destruct (eps_cases a n (epi b n k)) as [-> | ->], (eps_cases b n k) as [-> | ->]; auto.
    + apply epi_range; auto.
    + apply epi_range; auto.
    + destruct (eps_epi (a * b) k) as [q Eq]. destruct (eps_epi b k) as [q1 E1]. destruct (eps_epi a (epi b n k)) as [q2 E2].
      exists (- q + a * q1 + eps b n k * q2).
      replace (eps a n (epi b n k) * eps b n k * epi a n (epi b n k)) with (eps b n k * (eps a n (epi b n k) * epi a n (epi b n k))) by ring.
      replace (eps a n (epi b n k) * epi a n (epi b n k)) with (a * epi b n k - q2 * n) by lia.
      replace (eps (a * b) n k * epi (a * b) n k) with (a * b * k - q * n) by lia.
      transitivity (a * (b * k - eps b n k * epi b n k) - q * n + eps b n k * q2 * n); [ring|]. rewrite E1. ring.
  - rewrite zprod_mul. f_equal. rewrite <- (map_map (epi b n) (eps a n)).
    apply zprod_perm. apply Permutation_map. apply epi_perm. exact Hb.
Qed.
Lemma J_one : J 1 n = 1.
Proof.
  unfold J. fold h. transitivity (zprod (map (fun _ => 1) (zrange h))).
  - apply zprod_ext. intros k Hk. apply in_zrange in Hk. unfold eps. rewrite Z.mul_1_l, Z.mod_small by lia.
    destruct (Z.ltb_spec (2 * k) n); lia.
  - induction (zrange h); [reflexivity|]. cbn [map zprod fold_right]. unfold zprod in *. lia.
Qed.
Lemma J_pow a k : Z.gcd a n = 1 -> J (a ^ Z.of_nat k) n = J a n ^ Z.of_nat k.
Proof.
  intros Hg. induction k as [|k IH]; [change (a ^ Z.of_nat 0) with 1; rewrite J_one; reflexivity|].
  rewrite Nat2Z.inj_succ, !Z.pow_succ_r by lia. rewrite J_mul; [rewrite IH; reflexivity|exact Hg|].
  apply Zgcd_1_rel_prime, rel_prime_sym, rel_prime_Zpower_r; [lia|]. apply rel_prime_sym, Zgcd_1_rel_prime, Hg.
Qed.

Definition Sfl (a : Z) : Z := zsum (map (fun k => (a * k) / n) (zrange h)).
Lemma J_parity a : Z.gcd a n = 1 -> J a n = sgn (Sfl a + (a - 1) * zsum (zrange h)).
Proof.
  intros Hg. set (mu := fun k => if 2 * ((a * k) mod n) <? n then 0 else 1).
  assert (E : J a n = sgn (zsum (map mu (zrange h)))).
  { rewrite <- zprod_sgn. unfold J. fold h. apply zprod_ext. intros k _. unfold eps, mu. destruct (_ <? _); reflexivity. }
  rewrite E. apply sgn_ext.
  assert (D : (2 | zsum (map (fun k => a * k) (zrange h)) - zsum (map (fun k => (a * k) / n + (epi a n k + mu k)) (zrange h)))).
  { apply zsum_cong. intros k Hk. unfold epi, mu. pose proof (Z.div_mod (a * k) n ltac:(lia)) as Ed.
    set (q := a * k / n) in *. set (r := (a * k) mod n) in *. rewrite Ed.
    pose proof (f_equal (fun t => t * q) Hh) as Hq. cbv beta in Hq.
    destruct (_ <? _); [exists (Z.of_nat h * q)|exists (Z.of_nat h * q + r - Z.of_nat h - 1)]; lia. }
  rewrite zsum_add, zsum_add in D. fold (Sfl a) in D.
  rewrite (zsum_scal a (fun k => k)), map_id, (zsum_perm _ _ (epi_perm a Hg)) in D.
  destruct D as [q Eq]. exists (- Sfl a - q).
  set (S := Sfl a) in *. set (T := zsum (zrange h)) in *. set (M := zsum (map mu (zrange h))) in *.
  lia.
Qed.
Lemma J_odd a : Z.gcd a n = 1 -> Z.odd a = true -> J a n = sgn (Sfl a).
Proof.
  intros Hg Ho. rewrite J_parity by exact Hg. apply sgn_ext.
  apply Z.odd_spec in Ho. destruct Ho as [m ->]. exists (m * zsum (zrange h)). ring.
Qed.
Lemma J_two : J 2 n = sgn ((n * n - 1) / 8).
Proof.
  rewrite J_parity.
  - assert (E : Sfl 2 = 0).
    { unfold Sfl. transitivity (zsum (map (fun _ => 0) (zrange h))).
      - apply zsum_ext. intros k Hk. apply in_zrange in Hk. apply Z.div_small. lia.
      - rewrite zsum_const. reflexivity. }
    rewrite E, Z.add_0_l, Z.mul_1_l. f_equal. pose proof (zsum_range h) as R.
    pose proof (f_equal (fun t => t * t) Hh) as Hq. cbv beta in Hq.
    replace (n * n - 1) with (zsum (zrange h) * 8) by lia. rewrite Z.div_mul by lia. reflexivity.
  - rewrite Z.gcd_comm. apply Zgcd_1_rel_prime. apply rel_prime_sym, Zgcd_1_rel_prime.
    change 2 with (2 ^ 1). apply gcd_pow2_odd; [lia|exact Hodd].
Qed.
End Odd.

(** counting the lattice points *)
Lemma div_count x n m : 0 < n -> 0 <= x -> x / n <= Z.of_nat m ->
  x / n = zsum (map (fun j => if j * n <=? x then 1 else 0) (zrange m)).
Proof.
  intros Hn Hx. revert x Hx. induction m as [|m IH]; intros x Hx Hm.
  - cbn. assert (0 <= x / n) by (apply Z.div_pos; lia). lia.
  - rewrite zrange_S, map_app, zsum_app. cbn [map zsum fold_right].
    destruct (Z.leb_spec (Z.of_nat (S m) * n) x) as [L|L].
    + assert (E : x / n = Z.of_nat (S m)).
      { apply Z.le_antisymm; [exact Hm|]. apply Z.div_le_lower_bound; lia. }
      rewrite E. transitivity (zsum (map (fun _ => 1) (zrange m)) + (1 + 0)).
      * rewrite zsum_const, zrange_len. lia.
      * f_equal. apply zsum_ext. intros j Hj. apply in_zrange in Hj.
        destruct (Z.leb_spec (j * n) x) as [L1|L1]; [reflexivity|]. exfalso.
        assert (j * n <= Z.of_nat (S m) * n) by (apply Z.mul_le_mono_nonneg_r; lia). lia.
    + rewrite <- IH; [lia|exact Hx|]. assert (x / n < Z.of_nat (S m)) by (apply Z.div_lt_upper_bound; lia). lia.
Qed.
Lemma half_odd n : 0 < n -> Z.odd n = true -> n = 2 * Z.of_nat (hlf n) + 1.
Proof.
  intros. unfold hlf. pose proof (Z.div_mod n 2 ltac:(lia)). rewrite Zmod_odd, H0 in H1.
  assert (0 <= n / 2) by (apply Z.div_pos; lia). lia.
Qed.
Lemma Sfl_count a n : 0 < n -> Z.odd n = true -> 0 < a -> Z.odd a = true ->
  Sfl n a = zsum (map (fun k => zsum (map (fun j => if j * n <=? a * k then 1 else 0) (zrange (hlf a)))) (zrange (hlf n))).
Proof.
  intros Hn Hno Ha Hao. unfold Sfl. apply zsum_ext. intros k Hk. apply in_zrange in Hk.
  pose proof (half_odd n Hn Hno). pose proof (half_odd a Ha Hao).
  apply div_count; [exact Hn|apply Z.mul_nonneg_nonneg; lia|].
  assert (a * k / n < Z.of_nat (hlf a) + 1); [|lia].
  apply Z.div_lt_upper_bound; [lia|].
  apply Z.le_lt_trans with (a * Z.of_nat (hlf n)); [apply Z.mul_le_mono_nonneg_l; lia|].
  assert (2 * (a * Z.of_nat (hlf n)) < 2 * (n * (Z.of_nat (hlf a) + 1))); [|lia].
  replace (2 * (a * Z.of_nat (hlf n))) with (a * (2 * Z.of_nat (hlf n))) by ring.
  replace (2 * (n * (Z.of_nat (hlf a) + 1))) with (n * (2 * Z.of_nat (hlf a) + 2)) by ring.
  replace (2 * Z.of_nat (hlf n)) with (n - 1) by lia. replace (2 * Z.of_nat (hlf a) + 2) with (a + 1) by lia. lia.
Qed.
Lemma Sfl_recip a n : 0 < n -> Z.odd n = true -> 0 < a -> Z.odd a = true -> Z.gcd a n = 1 ->
  Sfl n a + Sfl a n = Z.of_nat (hlf a) * Z.of_nat (hlf n).
Proof.
  intros Hn Hno Ha Hao Hg. rewrite (Sfl_count a n), (Sfl_count n a) by assumption.
  rewrite (zsum_swap (fun k j => if j * n <=? a * k then 1 else 0)).
  rewrite <- zsum_add. transitivity (zsum (map (fun _ => Z.of_nat (hlf n)) (zrange (hlf a)))).
  - apply zsum_ext. intros j Hj. rewrite <- zsum_add.
    transitivity (zsum (map (fun _ => 1) (zrange (hlf n)))).
    + apply zsum_ext. intros k Hk. apply in_zrange in Hj. apply in_zrange in Hk.
      pose proof (half_odd n Hn Hno). pose proof (half_odd a Ha Hao).
      assert (j * n <> a * k).
      { intros E. assert (D : (n | a * k)) by (exists j; lia).
        apply Gauss in D; [|apply Zgcd_1_rel_prime; rewrite Z.gcd_comm; exact Hg].
        apply Z.divide_pos_le in D; lia. }
      rewrite (Z.mul_comm k a), (Z.mul_comm n j).
      destruct (Z.leb_spec (j * n) (a * k)), (Z.leb_spec (a * k) (j * n)); lia.
    + rewrite zsum_const, zrange_len. lia.
  - rewrite zsum_const, zrange_len. lia.
Qed.
(** quadratic reciprocity *)
Theorem reciprocity a n : 0 < n -> Z.odd n = true -> 0 < a -> Z.odd a = true -> Z.gcd a n = 1 ->
  J a n * J n a = sgn (Z.of_nat (hlf a) * Z.of_nat (hlf n)).
Proof.
  intros Hn Hno Ha Hao Hg. rewrite (J_odd n Hn Hno a Hg Hao).
  rewrite (J_odd a Ha Hao n) by (rewrite Z.gcd_comm || idtac; assumption).
  rewrite <- sgn_add. f_equal. apply Sfl_recip; assumption.
Qed.

(** multiplicativity in the modulus *)
Lemma gcd_mul a m n : Z.gcd a (m * n) = 1 <-> Z.gcd a m = 1 /\ Z.gcd a n = 1.
Proof.
  rewrite !Zgcd_1_rel_prime. split.
  - intros H. split; [apply rel_prime_sym, (rel_prime_div (m * n)); [apply rel_prime_sym, H|apply Z.divide_factor_l]
                     |apply rel_prime_sym, (rel_prime_div (m * n)); [apply rel_prime_sym, H|apply Z.divide_factor_r]].
  - intros [H1 H2]. apply rel_prime_mult; assumption.
Qed.
Lemma J_mul_r_odd a m n : 0 < m -> Z.odd m = true -> 0 < n -> Z.odd n = true -> 0 < a -> Z.odd a = true ->
  Z.gcd a (m * n) = 1 -> J a (m * n) = J a m * J a n.
Proof.
  intros Hm Hmo Hn Hno Ha Hao Hg. pose proof (proj1 (gcd_mul a m n) Hg) as [G1 G2].
  assert (Hmn : 0 < m * n) by (apply Z.mul_pos_pos; assumption).
  assert (Hmno : Z.odd (m * n) = true) by (rewrite Z.odd_mul, Hmo, Hno; reflexivity).
  pose proof (reciprocity a (m * n) Hmn Hmno Ha Hao Hg) as R.
  pose proof (reciprocity a m Hm Hmo Ha Hao G1) as R1.
  pose proof (reciprocity a n Hn Hno Ha Hao G2) as R2.
  rewrite (J_mul a Ha Hao m n) in R by (rewrite Z.gcd_comm; assumption).
  assert (Es : sgn (Z.of_nat (hlf a) * Z.of_nat (hlf (m * n))) = sgn (Z.of_nat (hlf a) * Z.of_nat (hlf m)) * sgn (Z.of_nat (hlf a) * Z.of_nat (hlf n))).
  { rewrite <- sgn_add. apply sgn_ext.
    pose proof (half_odd m Hm Hmo) as E1. pose proof (half_odd n Hn Hno) as E2. pose proof (half_odd _ Hmn Hmno) as E3.
    set (u := Z.of_nat (hlf (m * n))) in *. set (v := Z.of_nat (hlf m)) in *. set (w := Z.of_nat (hlf n)) in *.
    assert (Eu : u = v + w + 2 * (v * w)).
    { assert (Ex : m * n = (2 * v + 1) * (2 * w + 1)) by (rewrite <- E1, <- E2; reflexivity). lia. }
    exists (Z.of_nat (hlf a) * (v * w)). rewrite Eu. ring. }
  rewrite Es in R. rewrite <- R1, <- R2 in R.
  destruct (J_cases a (m * n)) as [A|A], (J_cases a m) as [B|B], (J_cases a n) as [C|C], (J_cases m a) as [D|D], (J_cases n a) as [E|E];
    rewrite A, B, C, D, E in *; lia.
Qed.
Lemma gcd_mod_eq a b n : a mod n = b mod n -> 0 < n -> Z.gcd a n = Z.gcd b n.
Proof. intros E Hn. rewrite !(Z.gcd_comm _ n), <- (Z.gcd_mod a n), <- (Z.gcd_mod b n), E by lia. reflexivity. Qed.
Lemma J_mul_r a m n : 0 < m -> Z.odd m = true -> 0 < n -> Z.odd n = true ->
  Z.gcd a (m * n) = 1 -> J a (m * n) = J a m * J a n.
Proof.
  intros Hm Hmo Hn Hno Hg.
  assert (Hmn : 0 < m * n) by (apply Z.mul_pos_pos; assumption).
  assert (Hmno : Z.odd (m * n) = true) by (rewrite Z.odd_mul, Hmo, Hno; reflexivity).
  set (b := let r := a mod (m * n) in if Z.odd r then r else r + m * n).
  pose proof (Z.mod_pos_bound a (m * n) Hmn) as B.
  assert (Eb : a mod (m * n) = b mod (m * n)).
  { unfold b. cbv zeta. destruct (Z.odd (a mod (m * n))); [rewrite Z.mod_mod by lia; reflexivity|].
    replace (a mod (m * n) + m * n) with (a mod (m * n) + 1 * (m * n)) by ring. rewrite Z.mod_add, Z.mod_mod by lia. reflexivity. }
  assert (Hb : Z.odd b = true).
  { unfold b. cbv zeta. destruct (Z.odd (a mod (m * n))) eqn:E; [exact E|]. rewrite Z.odd_add, E, Hmno. reflexivity. }
  assert (Hb0 : 0 < b).
  { unfold b. cbv zeta. destruct (Z.odd (a mod (m * n))) eqn:E; [|lia].
    destruct (Z.eq_dec (a mod (m * n)) 0) as [E0|]; [rewrite E0 in E; discriminate|lia]. }
  assert (Em : a mod m = b mod m).
  { apply mod_eq_divide; [exact Hm|]. apply mod_eq_divide in Eb; [|exact Hmn]. destruct Eb as [q Eq]. exists (q * n). lia. }
  assert (En : a mod n = b mod n).
  { apply mod_eq_divide; [exact Hn|]. apply mod_eq_divide in Eb; [|exact Hmn]. destruct Eb as [q Eq]. exists (q * m). lia. }
  rewrite (J_mod a b _ Eb), (J_mod a b _ Em), (J_mod a b _ En).
  apply J_mul_r_odd; auto. rewrite <- (gcd_mod_eq a b); auto.
Qed.

(** the symbol extended by 0 *)
Definition jac (a n : Z) : Z := if Z.gcd a n =? 1 then J a n else 0.
Lemma jac_mul_r a m n : 0 < m -> Z.odd m = true -> 0 < n -> Z.odd n = true -> jac a (m * n) = jac a m * jac a n.
Proof.
  intros Hm Hmo Hn Hno. unfold jac. pose proof (gcd_mul a m n) as G.
  destruct (Z.eqb_spec (Z.gcd a (m * n)) 1) as [E|E].
  - destruct (proj1 G E) as [-> ->]. change (1 =? 1) with true. cbv iota. apply J_mul_r; auto.
  - destruct (Z.eqb_spec (Z.gcd a m) 1), (Z.eqb_spec (Z.gcd a n) 1); lia.
Qed.

(** prime modulus: Euler's criterion *)
Lemma J_euler p a : prime p -> Z.odd p = true -> Z.gcd a p = 1 -> J a p mod p = a ^ Z.of_nat (hlf p) mod p.
Proof.
  intros Hp Ho Hg. pose proof (prime_ge_2 p Hp). 
  pose proof (half_odd p ltac:(lia) Ho) as Hh. set (h := hlf p) in *.
  apply (mod_cancel _ _ (zprod (zrange h)) p); [lia|apply zprod_range_coprime; [exact Hp|lia]|].
  assert (E1 : J a p * zprod (zrange h) = zprod (map (fun k => eps a p k * epi a p k) (zrange h))).
  { rewrite zprod_mul. unfold J. fold h. f_equal. symmetry. apply zprod_perm. apply epi_perm; auto. lia. }
  rewrite E1. symmetry.
  assert (E2 : zprod (map (fun k => a * k) (zrange h)) = a ^ Z.of_nat h * zprod (zrange h)).
  { rewrite zprod_mul, map_id. f_equal. clear. induction h as [|h IH]; [reflexivity|].
    rewrite zrange_S, map_app. transitivity (zprod (map (fun _ => a) (zrange h)) * a).
    - cbn [map]. generalize (map (fun _ : Z => a) (zrange h)) as l. induction l; unfold zprod in *; cbn [app fold_right]; [ring|]. rewrite IHl. ring.
    - rewrite IH, Nat2Z.inj_succ, Z.pow_succ_r by lia. ring. }
  rewrite <- E2. apply mod_eq_divide; [lia|]. apply zprod_cong. intros k _. apply eps_epi. lia.
Qed.

(** Lagrange: a polynomial of degree d has at most d roots modulo a prime *)
Fixpoint peval (c : list Z) (x : Z) : Z := match c with [] => 0 | c0 :: c' => c0 + x * peval c' x end.
Fixpoint pquo (c : list Z) (r : Z) : list Z :=
  match c with [] => [] | _ :: c' => match c' with [] => [] | _ => peval c' r :: pquo c' r end end.
Lemma pquo_spec c r x : peval c x - peval c r = (x - r) * peval (pquo c r) x.
Proof.
  induction c as [|c0 c' IH]; [cbn; ring|]. destruct c' as [|c1 c'']; [cbn; ring|].
  change (pquo (c0 :: c1 :: c'') r) with (peval (c1 :: c'') r :: pquo (c1 :: c'') r).
  set (c' := c1 :: c'') in *. cbn [peval]. 
  transitivity (x * (peval c' x - peval c' r) + (x - r) * peval c' r); [ring|]. rewrite IH. ring.
Qed.
Lemma pquo_len c r : length (pquo c r) = pred (length c).
Proof. induction c as [|c0 [|c1 c'] IH]; try reflexivity. change (pquo (c0 :: c1 :: c') r) with (peval (c1 :: c') r :: pquo (c1 :: c') r). cbn [length] in *. rewrite IH. reflexivity. Qed.
Lemma pquo_last c r d : (2 <= length c)%nat -> last (pquo c r) d = last c d.
Proof.
  revert d. induction c as [|c0 [|c1 c'] IH]; intros d L; cbn [length] in L; try lia.
  change (pquo (c0 :: c1 :: c') r) with (peval (c1 :: c') r :: pquo (c1 :: c') r).
  destruct c' as [|c2 c''].
  - cbn. ring.
  - change (last (c0 :: c1 :: c2 :: c'') d) with (last (c1 :: c2 :: c'') d).
    rewrite <- (IH d) by (cbn [length]; lia).
    change (pquo (c1 :: c2 :: c'') r) with (peval (c2 :: c'') r :: pquo (c2 :: c'') r). reflexivity.
Qed.
Lemma lagrange p : prime p -> forall d c l, length c = S d -> last c 0 mod p <> 0 ->
  NoDup l -> (forall x, In x l -> 0 <= x < p /\ peval c x mod p = 0) -> (length l <= d)%nat.
Proof.
  intros Hp. pose proof (prime_ge_2 p Hp). induction d as [|d IH]; intros c l Hc Hl Hn Hr.
  - destruct c as [|c0 [|]]; cbn [length] in Hc; try lia. destruct l as [|r l]; [apply le_n|].
    destruct (Hr r (or_introl eq_refl)) as [_ E]. cbn in E, Hl. rewrite Z.mul_0_r, Z.add_0_r in E. contradiction.
  - destruct l as [|r l]; [apply Nat.le_0_l|]. cbn [length]. apply le_n_S.
    destruct (Hr r (or_introl eq_refl)) as [Rr Er]. inversion Hn; subst.
    apply (IH (pquo c r)).
    + rewrite pquo_len, Hc. reflexivity.
    + rewrite pquo_last by lia. exact Hl.
    + assumption.
    + intros x Hx. destruct (Hr x (or_intror Hx)) as [Rx Ex]. split; [exact Rx|].
      pose proof (pquo_spec c r x) as Q.
      assert (D : (p | (x - r) * peval (pquo c r) x)).
      { rewrite <- Q. apply Z.divide_sub_r; apply Z.mod_divide; auto; lia. }
      apply prime_mult in D; [|exact Hp]. destruct D as [D|D]; [|apply Z.mod_divide; [lia|exact D]].
      exfalso. apply mod_eq_divide in D; [|lia]. rewrite !Z.mod_small in D by lia. subst. contradiction.
Qed.
Definition xpow (h : nat) (c : Z) : list Z := repeat 0 h ++ [c].
Lemma peval_xpow h c x : peval (xpow h c) x = c * x ^ Z.of_nat h.
Proof. unfold xpow. induction h as [|h IH]; [cbn; ring|]. cbn [repeat app peval]. rewrite IH, Nat2Z.inj_succ, Z.pow_succ_r by lia. ring. Qed.

Lemma euler_converse p a : prime p -> Z.odd p = true -> (a ^ Z.of_nat (hlf p)) mod p = 1 -> exists x, (x * x) mod p = a mod p.
Proof.
  intros Hp Ho Ea. pose proof (prime_ge_2 p Hp). pose proof (half_odd p ltac:(lia) Ho) as Hh.
  set (h := hlf p) in *. destruct h as [|h'] eqn:Eh; [lia|].
  set (l := map (fun k => (k * k) mod p) (zrange (S h'))).
  assert (Nl : NoDup l).
  { unfold l. assert (G : forall l', NoDup l' -> (forall x, In x l' -> 1 <= x <= Z.of_nat (S h')) -> NoDup (map (fun k => (k * k) mod p) l')).
    { induction l' as [|x l' IH]; intros N B; [constructor|]. apply NoDup_cons_iff in N; destruct N as [N1 N2]. cbn [map]. constructor.
      - intros I. apply in_map_iff in I. destruct I as [y [E I]]. assert (y = x); [|subst y; contradiction].
        pose proof (B x (or_introl eq_refl)). pose proof (B y (or_intror I)).
        apply mod_eq_divide in E; [|lia]. replace (y * y - x * x) with ((y - x) * (y + x)) in E by ring.
        apply prime_mult in E; [|exact Hp]. destruct E as [D|D].
        + apply mod_eq_divide in D; [|lia]. rewrite !Z.mod_small in D by lia. exact D.
        + apply Z.divide_pos_le in D; lia.
      - apply IH; [assumption|]. intros z Hz. apply B. right; exact Hz. }
    apply G; [apply nodup_zrange|]. intros x Hx. apply in_zrange in Hx. exact Hx. }
  destruct (in_dec Z.eq_dec (a mod p) l) as [I|I].
  - unfold l in I. apply in_map_iff in I. destruct I as [x [E _]]. exists x. exact E.
  - exfalso. set (c := (-1) :: xpow h' 1).
    assert (L : (length ((a mod p)%Z :: l) <= S h')%nat).
    { apply (lagrange p Hp (S h') c).
      - unfold c, xpow. cbn [length]. rewrite app_length, repeat_length. cbn [length]. lia.
      - unfold c, xpow. replace (-1 :: repeat 0 h' ++ [1]) with ((-1 :: repeat 0 h') ++ [1]) by reflexivity. rewrite last_last.
        rewrite Z.mod_1_l by lia. lia.
      - constructor; assumption.
      - assert (G : forall x, (x ^ Z.of_nat (S h')) mod p = 1 -> 0 <= x mod p < p /\ peval c (x mod p) mod p = 0).
        { intros x E. split; [apply Z.mod_pos_bound; lia|]. unfold c. cbn [peval]. rewrite peval_xpow, Z.mul_1_l, <- Z.pow_succ_r, <- Nat2Z.inj_succ by lia.
          rewrite <- Z.add_mod_idemp_r, pow_mod_l, E by lia. reflexivity. }
        intros x [<-|I1]; [apply G; exact Ea|]. unfold l in I1. apply in_map_iff in I1. destruct I1 as [k [<- I1]].
        apply in_zrange in I1. apply G. replace (k * k) with (k ^ 2) by ring. rewrite <- Z.pow_mul_r by lia.
        replace (2 * Z.of_nat (S h')) with (p - 1) by lia. apply fermat; [exact Hp|]. rewrite Z.mod_small by lia. lia. }
    unfold l in L. cbn [length] in L. rewrite map_length, zrange_len in L. lia.
Qed.

Lemma J_legendre p a : prime p -> Z.odd p = true -> a mod p <> 0 ->
  (J a p = 1 <-> exists x, (x * x) mod p = a mod p).
Proof.
  intros Hp Ho Ha. pose proof (prime_ge_2 p Hp). pose proof (prime_coprime p a Hp Ha) as Hg. split.
  - intros E. apply euler_converse; auto. rewrite <- J_euler, E by auto. apply Z.mod_1_l. lia.
  - intros [x E]. rewrite (J_mod a (x * x)) by (symmetry; exact E).
    assert (Hx : Z.gcd x p = 1).
    { apply prime_coprime; [exact Hp|]. intros C. apply Ha. rewrite <- E, <- Z.mul_mod_idemp_l, C by lia. apply Z.mod_0_l. lia. }
    rewrite J_mul by (auto; lia). apply J_sq.
Qed.
