(** Primality certificates (Pocklington's criterion), so that the primality of the field moduli need not be assumed. *)
From Verif Require Import Proof.NumTheory.
From Coq Require Import ZArith Znumtheory Zpow_facts List Lia Bool.
Import ListNotations.
Open Scope Z_scope.

(** ** fast reduction modulo N: the part above 2^n is replaced, five bits at a time, by tabulated residues *)
Definition addm (N a b : Z) : Z := let s := a + b in if s <? N then s else s - N.
Fixpoint row (n : nat) (N b e : Z) : list Z * Z := match n with O => ([], e) | S n' => let r := row n' N b (addm N e b) in (e :: fst r, snd r) end.
Fixpoint table (m : nat) (N b : Z) : list (list Z) := match m with O => [] | S m' => let r := row 32 N b 0 in fst r :: table m' N (snd r) end.
Fixpoint fold_hi (t : list (list Z)) (hi acc : Z) : Z * Z :=
  match t with
  | [] => (acc, hi)
  | r :: t' => if hi =? 0 then (acc, 0) else fold_hi t' (Z.div2 (Z.div2 (Z.div2 (Z.div2 (Z.div2 hi))))) (acc + nth (Z.to_nat (Z.land hi 31)) r 0)
  end.
Definition redm (n N h : Z) (t : list (list Z)) (x : Z) : Z :=
  if x <? N then x else
  let fh := fold_hi t (Z.shiftr x n) (Z.land x (Z.ones n)) in
  let y := fst fh in
  let r := y - Z.shiftr y (n - 8) / h * N in
  let r := if r <? 0 then r + N else if r <? N then r else r - N in
  if (snd fh =? 0) && (0 <=? r) && (r <? N) then r else x mod N.
Definition tab (n N : Z) : list (list Z) := table (Z.to_nat (n / 5 + 2)) N (2 ^ n mod N).
Lemma addm_spec N a b : (addm N a b) mod N = (a + b) mod N.
Proof. unfold addm. cbv zeta. destruct (a + b <? N); [reflexivity|]. rewrite <- (Z_mod_plus_full (a + b - N) 1 N). f_equal. ring. Qed.
Lemma row_spec n N b : forall e, (forall k, (k < n)%nat -> nth k (fst (row n N b e)) 0 mod N = (e + Z.of_nat k * b) mod N) /\ snd (row n N b e) mod N = (e + Z.of_nat n * b) mod N.
Proof.
  induction n as [|n IH]; intros e; cbn [row fst snd]; cbv zeta; [split; [lia|f_equal; lia]|].
  destruct (IH (addm N e b)) as [I1 I2]. split.
  - intros [|k] Hk; cbn [nth fst]; [f_equal; lia|]. rewrite I1 by lia. rewrite <- Zplus_mod_idemp_l, addm_spec, Zplus_mod_idemp_l. f_equal. lia.
  - cbn [snd]. rewrite I2. rewrite <- Zplus_mod_idemp_l, addm_spec, Zplus_mod_idemp_l. f_equal. lia.
Qed.
Lemma div2_5 hi : Z.div2 (Z.div2 (Z.div2 (Z.div2 (Z.div2 hi)))) = hi / 32.
Proof. rewrite !Z.div2_div, !Z.div_div by lia. reflexivity. Qed.
Lemma fold_hi_spec m N : forall b hi acc, 0 <= hi -> snd (fold_hi (table m N b) hi acc) = 0 -> fst (fold_hi (table m N b) hi acc) mod N = (acc + hi * b) mod N.
Proof.
  induction m as [|m IH]; intros b hi acc Hh H; cbn [table fold_hi] in *; cbv zeta in *.
  - cbn [fst snd] in *. rewrite H. f_equal; lia.
  - destruct (Z.eqb_spec hi 0) as [E|E]; [cbn [fst]; rewrite E; f_equal; lia|].
    rewrite div2_5 in *. destruct (row_spec 32 N b 0) as [R1 R2]. rewrite IH; [|apply Z.div_pos; lia|exact H].
    change 31 with (Z.ones 5). rewrite Z.land_ones by lia. change (2 ^ 5) with 32. pose proof (Z.mod_pos_bound hi 32 ltac:(lia)).
    rewrite <- Zplus_mod_idemp_r, <- Zmult_mod_idemp_r, R2, Zmult_mod_idemp_r, Zplus_mod_idemp_r.
    rewrite <- Z.add_assoc, <- Zplus_mod_idemp_r. rewrite <- (Zplus_mod_idemp_l (nth _ _ _)), R1 by lia. rewrite Zplus_mod_idemp_l, Zplus_mod_idemp_r. f_equal. rewrite Z2Nat.id by lia.
    change (Z.of_nat 32) with 32. rewrite (Z.div_mod hi 32) at 3 by lia. ring.
Qed.
Lemma redm_spec n N h x : 0 < N -> 0 <= n -> 0 <= x -> redm n N h (tab n N) x = x mod N.
Proof.
  intros HN Hn Hx. unfold redm. destruct (Z.ltb_spec x N); [rewrite Z.mod_small by lia; reflexivity|]. cbv zeta. set (fh := fold_hi _ _ _).
  set (y := fst fh). set (q := Z.shiftr y (n - 8) / h). set (r := if y - q * N <? 0 then _ else _).
  destruct (Z.eqb_spec (snd fh) 0) as [E|E]; [|reflexivity]. destruct (Z.leb_spec 0 r) as [L|L]; [|reflexivity]. destruct (Z.ltb_spec r N) as [L'|L']; [|reflexivity]. cbn [andb].
  assert (Y : y mod N = x mod N).
  { unfold y, fh. unfold tab. rewrite fold_hi_spec; [|apply Z.shiftr_nonneg; exact Hx|exact E]. rewrite <- Zplus_mod_idemp_r, Zmult_mod_idemp_r, Zplus_mod_idemp_r.
    rewrite Z.land_ones, Z.shiftr_div_pow2 by lia. f_equal. rewrite (Z.div_mod x (2 ^ n)) at 3 by (apply Z.pow_nonzero; lia). ring. }
  rewrite <- Y. rewrite <- (Z.mod_small r N) by lia. unfold r.
  destruct (y - q * N <? 0); [|destruct (y - q * N <? N)].
  - rewrite <- (Z_mod_plus_full y (1 - q) N). f_equal. ring.
  - rewrite <- (Z_mod_plus_full y (- q) N). f_equal. ring.
  - rewrite <- (Z_mod_plus_full y (- q - 1) N). f_equal. ring.
Qed.
(** ** modular powers, most significant exponent bit first *)
Fixpoint powp (a : Z) (f : Z -> Z) (e : positive) : Z :=
  match e with
  | xH => f a
  | xO e' => f (Z.square (powp a f e'))
  | xI e' => f (a * f (Z.square (powp a f e')))
  end.
Definition powm (a e N : Z) : Z :=
  match e with
  | Zpos p => let n := Z.log2 N + 1 in let t := tab n N in let h := Z.shiftr N (n - 8) in powp a (redm n N h t) p
  | Z0 => 1 mod N
  | Zneg _ => 0
  end.
Lemma powp_spec a N f e : 0 < N -> 0 <= a -> (forall x, 0 <= x -> f x = x mod N) -> powp a f e = a ^ Zpos e mod N.
Proof.
  intros HN Ha Hf. induction e as [e IH|e IH|]; cbn [powp]; rewrite ?Z.square_spec.
  - rewrite IH. rewrite Pos2Z.inj_xI. replace (2 * Zpos e + 1) with (Zpos e + Zpos e + 1) by lia. rewrite !Z.pow_add_r by lia. rewrite Z.pow_1_r.
    assert (0 <= a ^ Zpos e mod N) by (apply Z.mod_pos_bound; exact HN). assert (X : 0 <= (a ^ Zpos e mod N) * (a ^ Zpos e mod N)) by (apply Z.mul_nonneg_nonneg; assumption).
    rewrite (Hf _ X). rewrite Hf by (apply Z.mul_nonneg_nonneg; [exact Ha|apply Z.mod_pos_bound; exact HN]). rewrite <- (Z.mul_mod (a ^ Zpos e)) by lia. rewrite Z.mul_mod_idemp_r by lia. f_equal. ring.
  - rewrite IH. rewrite Pos2Z.inj_xO. replace (2 * Zpos e) with (Zpos e + Zpos e) by lia. rewrite Z.pow_add_r by lia.
    assert (0 <= a ^ Zpos e mod N) by (apply Z.mod_pos_bound; exact HN). rewrite Hf by (apply Z.mul_nonneg_nonneg; assumption). rewrite <- Z.mul_mod by lia. reflexivity.
  - rewrite Z.pow_1_r. apply Hf. exact Ha.
Qed.
Lemma powm_spec a e N : 0 < N -> 0 <= a -> 0 <= e -> powm a e N = a ^ e mod N.
Proof.
  intros HN Ha He. destruct e as [|e|e]; [reflexivity| |lia]. unfold powm. cbv zeta. apply powp_spec; try assumption. intros x Hx. apply redm_spec; try assumption.
  pose proof (Z.log2_nonneg N). lia.
Qed.

Lemma rel_prime_Zpower_l i p q : 0 <= i -> rel_prime p q -> rel_prime (p ^ i) q.
Proof. intros Hi H. apply rel_prime_sym, rel_prime_Zpower_r; [exact Hi|]. apply rel_prime_sym. exact H. Qed.
Lemma fac_rng n m k : n = m * k -> 1 < k < n -> 1 < m < n.
Proof.
  intros E H. assert (0 < m) by (apply (Z.mul_pos_cancel_r m k); lia). split; [|nia].
  destruct (Z.eq_dec m 1) as [->|N]; lia.
Qed.
Lemma prime_div_ex n : 1 < n -> exists P, prime P /\ (P | n).
Proof.
  intros Hn. assert (G : forall k m, (Z.to_nat m < k)%nat -> 1 < m -> exists P, prime P /\ (P | m)).
  { induction k as [|k IH]; intros m Hk Hm; [lia|]. destruct (prime_dec m) as [Pm|Pm]; [exists m; split; [exact Pm|apply Z.divide_refl]|].
    destruct (not_prime_divide m Hm Pm) as [d [D1 D2]]. destruct (IH d) as [P [P1 P2]]; [lia|lia|]. exists P. split; [exact P1|]. apply Z.divide_trans with d; assumption. }
  apply (G (S (Z.to_nat n)) n); lia.
Qed.

(** ** small primes by trial division *)
Fixpoint tdiv (fuel : nat) (d n : Z) : bool :=
  match fuel with O => false | S f => if n <? d * d then true else if n mod d =? 0 then false else tdiv f (d + 1) n end.
Definition smallprime (n : Z) : bool := (1 <? n) && tdiv 500 2 n.
Lemma tdiv_ok fuel : forall d n, 1 < d -> 1 < n -> (forall k, 1 < k < d -> ~ (k | n)) -> tdiv fuel d n = true -> prime n.
Proof.
  induction fuel as [|f IH]; intros d n Hd Hn Hs H; cbn [tdiv] in H; [discriminate|].
  destruct (Z.ltb_spec n (d * d)) as [L|L].
  - destruct (prime_dec n) as [P|P]; [exact P|exfalso]. destruct (not_prime_divide n Hn P) as [k [K1 K2]]. destruct K2 as [m M].
    pose proof (fac_rng n m k M K1) as Hm.
    destruct (Z.lt_ge_cases k d) as [C|C]; [apply (Hs k); [lia|exists m; exact M]|].
    destruct (Z.lt_ge_cases m d) as [C'|C']; [apply (Hs m); [lia|exists k; lia]|].
    assert (d * d <= m * k) by (apply Z.mul_le_mono_nonneg; lia). lia.
  - destruct (Z.eqb_spec (n mod d) 0) as [E|E]; [discriminate|]. apply (IH (d + 1) n); [lia|lia| |exact H].
    intros k Hk D. destruct (Z.eq_dec k d) as [->|NE]; [|apply (Hs k); [lia|exact D]]. apply E. apply Z.mod_divide; [lia|exact D].
Qed.
Lemma smallprime_ok n : smallprime n = true -> prime n.
Proof. unfold smallprime. rewrite andb_true_iff, Z.ltb_lt. intros [H1 H2]. apply (tdiv_ok 500 2 n); [lia|lia|intros k Hk; lia|exact H2]. Qed.

(** ** Pocklington's criterion *)
Lemma pow1_mul a x y P : 0 < P -> 0 <= x -> 0 <= y -> a ^ x mod P = 1 mod P -> a ^ (x * y) mod P = 1 mod P.
Proof.
  intros HP Hx Hy H. rewrite Z.pow_mul_r by lia. rewrite <- pow_mod_l by lia. rewrite H. rewrite pow_mod_l by lia. rewrite Z.pow_1_l by lia. reflexivity.
Qed.
Lemma pow1_sub a x y P : prime P -> Z.gcd a P = 1 -> 0 <= y <= x -> a ^ x mod P = 1 mod P -> a ^ y mod P = 1 mod P -> a ^ (x - y) mod P = 1 mod P.
Proof.
  intros HP Hg Hxy H1 H2. pose proof (prime_ge_2 P HP). apply (mod_cancel _ _ (a ^ y)); [lia| |].
  - apply Zgcd_1_rel_prime. apply rel_prime_Zpower_l; [lia|]. apply Zgcd_1_rel_prime. exact Hg.
  - rewrite <- Z.pow_add_r by lia. replace (x - y + y) with x by lia. rewrite Z.mul_1_l. rewrite H1, H2. reflexivity.
Qed.
Lemma pow1_gcd a P : prime P -> Z.gcd a P = 1 -> forall n x y, (Z.to_nat (x + y) < n)%nat -> 0 <= x -> 0 <= y -> a ^ x mod P = 1 mod P -> a ^ y mod P = 1 mod P -> a ^ Z.gcd x y mod P = 1 mod P.
Proof.
  intros HP Hg. induction n as [|n IH]; intros x y Hn Hx Hy H1 H2; [lia|].
  destruct (Z.eq_dec x 0) as [->|Nx]. { rewrite Z.gcd_0_l, Z.abs_eq by lia. exact H2. }
  destruct (Z.eq_dec y 0) as [->|Ny]. { rewrite Z.gcd_0_r, Z.abs_eq by lia. exact H1. }
  destruct (Z.le_gt_cases x y) as [L|L].
  - rewrite <- (Z.gcd_sub_diag_r x y). apply (IH x (y - x)); [lia|lia|lia|exact H1|]. apply pow1_sub; try assumption. lia.
  - rewrite Z.gcd_comm, <- (Z.gcd_sub_diag_r y x). apply (IH y (x - y)); [lia|lia|lia|exact H2|]. apply pow1_sub; try assumption. lia.
Qed.
Lemma pock_step N P a q k : 1 < N -> prime P -> (P | N) -> prime q -> 0 <= k -> (q ^ k | N - 1) ->
  a ^ (N - 1) mod N = 1 -> Z.gcd (a ^ ((N - 1) / q) - 1) N = 1 -> (q ^ k | P - 1).
Proof.
  intros HN HP HD Hq Hk Hqk Ha Hg. pose proof (prime_ge_2 P HP). pose proof (prime_ge_2 q Hq).
  destruct HD as [c Hc].
  assert (HaP : a ^ (N - 1) mod P = 1 mod P).
  { apply mod_eq_divide; [lia|]. apply Z.divide_trans with N; [exists c; lia|]. apply mod_eq_divide; [lia|]. rewrite Ha. rewrite Z.mod_small by lia. reflexivity. }
  assert (Hcop : Z.gcd a P = 1).
  { apply prime_coprime; [exact HP|]. intros E. rewrite <- pow_mod_l in HaP by lia. rewrite E in HaP. rewrite Z.pow_0_l in HaP by lia. rewrite Z.mod_0_l, Z.mod_1_l in HaP by lia. discriminate HaP. }
  assert (HaF : a ^ (P - 1) mod P = 1 mod P).
  { rewrite fermat; [rewrite Z.mod_1_l by lia; reflexivity|exact HP|]. intros E. rewrite Z.gcd_comm, <- Z.gcd_mod in Hcop by lia. rewrite E, Z.gcd_0_l, Z.abs_eq in Hcop by lia. lia. }
  pose proof (pow1_gcd a P HP Hcop (S (Z.to_nat (N - 1 + (P - 1)))) (N - 1) (P - 1) ltac:(lia) ltac:(lia) ltac:(lia) HaP HaF) as HG.
  set (g := Z.gcd (N - 1) (P - 1)) in *.
  assert (Hg0 : 0 < g). { assert (0 <= g) by apply Z.gcd_nonneg. destruct (Z.eq_dec g 0) as [E|E]; [|lia]. apply Z.gcd_eq_0_l in E. lia. }
  destruct (Z.gcd_divide_l (N - 1) (P - 1)) as [h Hh]. fold g in Hh.
  destruct (Zdivide_dec q h) as [D|D].
  - exfalso. destruct D as [m Hm]. assert (E : (N - 1) / q = g * m). { rewrite Hh, Hm. replace (m * q * g) with (g * m * q) by ring. apply Z.div_mul. lia. }
    assert (0 <= m). { assert (0 < h) by (apply (Z.mul_pos_cancel_r h g); lia). apply (Z.mul_le_mono_pos_r 0 m q); lia. }
    assert (F : a ^ ((N - 1) / q) mod P = 1 mod P) by (rewrite E; apply pow1_mul; try lia; exact HG).
    apply mod_eq_divide in F; [|lia]. assert (X : (P | Z.gcd (a ^ ((N - 1) / q) - 1) N)) by (apply Z.gcd_greatest; [exact F|exists c; exact Hc]).
    rewrite Hg in X. apply Z.divide_1_r_nonneg in X; lia.
  - apply Z.divide_trans with g; [|apply Z.gcd_divide_r]. apply Gauss with h; [rewrite <- Hh; exact Hqk|].
    apply rel_prime_Zpower_l; [exact Hk|]. apply prime_rel_prime; assumption.
Qed.

(** a certificate: N, the base a, and prime powers q^k dividing N-1 *)
Definition cert := (Z * Z * list (Z * Z))%type.
Definition cert_prod (l : list (Z * Z)) : Z := fold_right (fun qk f => fst qk ^ snd qk * f) 1 l.
Definition pock_check (c : cert) : bool :=
  let '(N, a, l) := c in
  (1 <? N) && (0 <=? a) && (powm a (N - 1) N =? 1) && (N <? cert_prod l * cert_prod l) &&
  forallb (fun qk => (0 <? snd qk) && ((N - 1) mod (fst qk ^ snd qk) =? 0) && (Z.gcd (powm a ((N - 1) / fst qk) N - 1) N =? 1)) l.
Fixpoint distinct (l : list (Z * Z)) : bool := match l with [] => true | (q, _) :: l' => forallb (fun x => negb (fst x =? q)) l' && distinct l' end.
Lemma cert_prod_divides l X : Forall (fun qk => prime (fst qk) /\ 0 < snd qk /\ (fst qk ^ snd qk | X)) l -> distinct l = true -> (cert_prod l | X).
Proof.
  induction l as [|[q k] l IH]; intros H D; cbn [cert_prod fold_right fst snd]; [apply Z.divide_1_l|]. fold (cert_prod l).
  inversion H as [|x xs [H1 [H2 H3]] H4]; subst. cbn [fst snd] in *. cbn [distinct] in D. apply andb_true_iff in D. destruct D as [D1 D2].
  specialize (IH H4 D2). assert (RP : rel_prime (q ^ k) (cert_prod l)).
  { clear IH H D2 H3. induction l as [|[q' k'] l IHl]; cbn [cert_prod fold_right fst snd]; [apply rel_prime_sym; apply rel_prime_1|]. fold (cert_prod l).
    inversion H4 as [|x xs [G1 [G2 G3]] G4]; subst. cbn [fst snd] in *. cbn [forallb fst] in D1. apply andb_true_iff in D1. destruct D1 as [E1 E2]. apply negb_true_iff, Z.eqb_neq in E1.
    apply rel_prime_mult.
    - apply rel_prime_Zpower; try lia. apply prime_rel_prime; [exact H1|]. intros Dv. apply prime_div_prime in Dv; try assumption. congruence.
    - apply IHl; assumption. }
  destruct IH as [m Hm]. assert (Dm : (q ^ k | m)). { apply Gauss with (cert_prod l); [rewrite Z.mul_comm, <- Hm; exact H3|exact RP]. }
  destruct Dm as [n Hn]. exists n. rewrite Hm, Hn. ring.
Qed.
Theorem pocklington N a l : Forall (fun qk => prime (fst qk)) l -> distinct l = true -> pock_check (N, a, l) = true -> prime N.
Proof.
  intros Hl Hd H. unfold pock_check in H. rewrite !andb_true_iff, !Z.ltb_lt, Z.eqb_eq, Z.leb_le in H. destruct H as [[[[HN Ha0] Ha] HF] Hf].
  destruct (prime_dec N) as [PN|PN]; [exact PN|exfalso].
  rewrite powm_spec in Ha by lia.
  (* a prime divisor with P^2 <= N *)
  assert (EX : exists P, prime P /\ (P | N) /\ P * P <= N).
  { destruct (not_prime_divide N HN PN) as [k [K1 [m M]]]. pose proof (fac_rng N m k M K1) as Hm.
    assert (G : forall x y, 1 < x -> x <= y -> N = x * y -> exists P, prime P /\ (P | N) /\ P * P <= N).
    { intros x y X1 X2 E. destruct (prime_div_ex x X1) as [P [P1 P2]]. exists P. split; [exact P1|]. split; [apply Z.divide_trans with x; [exact P2|exists y; lia]|].
      apply Z.divide_pos_le in P2; [|lia]. pose proof (prime_ge_2 P P1). assert (P * P <= x * y) by (apply Z.mul_le_mono_nonneg; lia). lia. }
    destruct (Z.le_gt_cases k m) as [C|C]; [apply (G k m); lia|apply (G m k); lia]. }
  destruct EX as [P [P1 [P2 P3]]]. pose proof (prime_ge_2 P P1).
  assert (D : (cert_prod l | P - 1)).
  { apply cert_prod_divides; [|exact Hd]. rewrite forallb_forall in Hf. rewrite Forall_forall in Hl |- *. intros [q k] I. specialize (Hl _ I). specialize (Hf _ I). cbn [fst snd] in *.
    rewrite !andb_true_iff, Z.ltb_lt, !Z.eqb_eq in Hf. destruct Hf as [[F1 F2] F3]. pose proof (prime_ge_2 q Hl). split; [exact Hl|]. split; [exact F1|].
    assert (QK : (q ^ k | N - 1)) by (apply Z.mod_divide; [apply Z.pow_nonzero; lia|exact F2]).
    apply (pock_step N P a q k); try assumption; [lia|].
    rewrite powm_spec in F3; [|lia|exact Ha0|apply Z.div_pos; lia].
    rewrite Z.gcd_comm in F3 |- *. rewrite <- Z.gcd_mod in F3 |- * by lia. rewrite Zminus_mod_idemp_l in F3. exact F3. }
  apply Z.divide_pos_le in D; [|lia]. assert (0 <= cert_prod l).
  { clear - Hl. induction l as [|[q k] l IH]; cbn [cert_prod fold_right fst snd]; [lia|]. fold (cert_prod l). inversion Hl as [|x xs H1 H2]; subst. cbn [fst] in H1. pose proof (prime_ge_2 q H1).
    apply Z.mul_nonneg_nonneg; [apply Z.pow_nonneg; lia|exact (IH H2)]. }
  assert (cert_prod l * cert_prod l <= (P - 1) * (P - 1)) by (apply Z.mul_le_mono_nonneg; lia). nia.
Qed.
(** ** chains: every q is a small prime or certified earlier *)
Definition link_check (known : list Z) (c : cert) : bool :=
  let '(N, a, l) := c in forallb (fun qk => existsb (Z.eqb (fst qk)) known || smallprime (fst qk)) l && distinct l && pock_check c.
Fixpoint chain_check (known : list Z) (cs : list cert) : bool :=
  match cs with [] => true | c :: cs' => link_check known c && chain_check (fst (fst c) :: known) cs' end.
Lemma link_ok known c : Forall prime known -> link_check known c = true -> prime (fst (fst c)).
Proof.
  destruct c as [[N a] l]. unfold link_check. rewrite !andb_true_iff. intros Hk [[H1 H2] H3]. cbn [fst]. apply (pocklington N a l); [|exact H2|exact H3].
  rewrite forallb_forall in H1. rewrite Forall_forall in *. intros x I. specialize (H1 x I). apply orb_true_iff in H1. destruct H1 as [H1|H1]; [|apply smallprime_ok; exact H1].
  apply existsb_exists in H1. destruct H1 as [y [Y1 Y2]]. apply Z.eqb_eq in Y2. rewrite Y2. apply Hk. exact Y1.
Qed.
Lemma chain_ok cs : forall known, Forall prime known -> chain_check known cs = true -> Forall prime (map (fun c : cert => fst (fst c)) cs).
Proof.
  induction cs as [|c cs IH]; intros known Hk H; cbn [chain_check map] in *; [constructor|]. apply andb_true_iff in H. destruct H as [H1 H2].
  pose proof (link_ok known c Hk H1) as P. constructor; [exact P|]. apply (IH (fst (fst c) :: known)); [constructor; assumption|exact H2].
Qed.
Theorem chain_prime cs N : chain_check [] cs = true -> In N (map (fun c : cert => fst (fst c)) cs) -> prime N.
Proof. intros H I. pose proof (chain_ok cs [] (Forall_nil _) H) as F. rewrite Forall_forall in F. apply F. exact I. Qed.
