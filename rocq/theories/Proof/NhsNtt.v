(** NewHope: the transforms evaluate and interpolate at the 1024 roots of x^1024 + 1. *)
From Verif Require Import Base.Word Base.Arr Model.NhsTables Model.Nhs Spec.NhsSpec Proof.NhsRed.
From Coq Require Import Lia Setoid Morphisms.

(** ** roots *)
Definition Wt (k : nat) : Z := RI * at_ ROOTS k.
(** x^(1024/m) is congruent to cc (m+i) in block i of level m *)
Definition cc (k : nat) : Z := if (k =? 1)%nat then -1 else if Nat.even k then Wt (Nat.div2 k) else - Wt (Nat.div2 k).
Definition rootb (k : nat) : bool :=
  ((Wt k * Wt k) mod q =? cc k mod q) && ((RI * at_ IROOTS k * Wt k) mod q =? 1) && (0 <=? at_ ROOTS k) && (at_ ROOTS k <? q) && (0 <=? at_ IROOTS k) && (at_ IROOTS k <? q).
Lemma roots_checked : forallb rootb (seq 1 1023) = true. Proof. vm_compute. reflexivity. Qed.
Lemma root_facts k : (1 <= k < 1024)%nat -> cgq (Wt k * Wt k) (cc k) /\ cgq (RI * at_ IROOTS k * Wt k) 1 /\ 0 <= at_ ROOTS k < q /\ 0 <= at_ IROOTS k < q.
Proof.
  intros Hk. pose proof (proj1 (forallb_forall rootb (seq 1 1023)) roots_checked k (proj2 (in_seq 1023 1 k) ltac:(lia))) as H. unfold rootb in H. rewrite !andb_true_iff, !Z.leb_le, !Z.ltb_lt, !Z.eqb_eq in H.
  destruct H as [[[[[H1 H2] H3] H4] H5] H6]. split; [apply cgq_mod; exact H1|]. split; [apply cgq_mod; rewrite H2; reflexivity|]. split; split; assumption.
Qed.
Lemma cc_even k : (1 <= k)%nat -> cc (2 * k) = Wt k.
Proof. intros H. unfold cc. destruct (Nat.eqb_spec (2 * k) 1); [lia|]. rewrite Nat.even_mul. cbn [Nat.even orb]. rewrite Nat.div2_double. reflexivity. Qed.
Lemma cc_odd k : (1 <= k)%nat -> cc (2 * k + 1) = - Wt k.
Proof. intros H. unfold cc. destruct (Nat.eqb_spec (2 * k + 1) 1); [lia|]. rewrite Nat.even_add, Nat.even_mul. cbn [Nat.even orb Bool.eqb]. replace (2 * k + 1)%nat with (S (2 * k)) by lia. rewrite Nat.div2_succ_double. reflexivity. Qed.
Lemma Wt_rep k : cgq (at_ ROOTS k) (RR * Wt k).
Proof. unfold Wt. rewrite Z.mul_assoc, (Z.mul_comm RR RI). pose proof RI_ok as H. rewrite H, Z.mul_1_l. reflexivity. Qed.

Fixpoint pw (x : Z) (k : nat) : Z := match k with O => 1 | S k => x * pw x k end.
#[global] Instance pw_cg : Proper (cgq ==> eq ==> cgq) pw.
Proof. intros a b H k k' <-. induction k as [|k IH]; [reflexivity|]. cbn [pw]. apply cgq_mul; assumption. Qed.
Lemma pw_add x a b : pw x (a + b) = pw x a * pw x b.
Proof. induction a as [|a IH]; cbn [pw Nat.add]; [ring|]. rewrite IH. ring. Qed.
Lemma pw_sq x k : pw x (2 * k) = pw (x * x) k.
Proof. induction k as [|k IH]; [reflexivity|]. replace (2 * S k)%nat with (S (S (2 * k))) by lia. cbn [pw]. rewrite IH. ring. Qed.
Lemma pw_sq1 x k : pw x (2 * k + 1) = x * pw (x * x) k.
Proof. rewrite Nat.add_1_r. cbn [pw]. rewrite pw_sq. reflexivity. Qed.

(** ** levels: with blocks of length T, coefficient o of block i of level m *)
Definition Sv (a : poly) (T m i o : nat) : Z := sum (fun k => a (o + T * k)%nat * pw (cc (m + i)) k) m.
Lemma Sv_step a t m i o : (1 <= m)%nat -> (m + i < 1024)%nat ->
  cgq (Sv a t (2 * m) (2 * i) o) (Sv a (2 * t) m i o + Wt (m + i) * Sv a (2 * t) m i (o + t)) /\
  cgq (Sv a t (2 * m) (2 * i + 1) o) (Sv a (2 * t) m i o - Wt (m + i) * Sv a (2 * t) m i (o + t)).
Proof.
  intros H1 H2. destruct (root_facts (m + i) ltac:(lia)) as [R1 _].
  assert (G : forall s w, cgq (s * s) (cc (m + i)) -> w = s -> cgq (sum (fun k => a (o + t * k)%nat * pw w k) (2 * m)) (Sv a (2 * t) m i o + s * Sv a (2 * t) m i (o + t))).
  { intros s w Hs ->. rewrite sum_even_odd. unfold Sv. rewrite <- sum_scal. apply cgq_add; apply sum_cg; intros k _.
    - rewrite pw_sq, Hs. replace (o + t * (2 * k))%nat with (o + 2 * t * k)%nat by lia. reflexivity.
    - rewrite pw_sq1, Hs. replace (o + t * (2 * k + 1))%nat with (o + t + 2 * t * k)%nat by lia. apply cgq_eq; ring. }
  split.
  - unfold Sv at 1. apply G; [exact R1|]. replace (2 * m + 2 * i)%nat with (2 * (m + i))%nat by lia. apply cc_even. lia.
  - unfold Sv at 1. replace (Sv a (2 * t) m i o - Wt (m + i) * Sv a (2 * t) m i (o + t)) with (Sv a (2 * t) m i o + (- Wt (m + i)) * Sv a (2 * t) m i (o + t)) by ring.
    apply G; [rewrite Z.mul_opp_opp; exact R1|]. replace (2 * m + (2 * i + 1))%nat with (2 * (m + i) + 1)%nat by lia. apply cc_odd. lia.
Qed.
Lemma Sv_top a o : Sv a 1024 1 0 o = a o.
Proof. unfold Sv. cbn [sum pw]. rewrite Nat.mul_0_r, Nat.add_0_r. ring. Qed.

(** ** the passes *)
Lemma at_aset l i j v : (i < length l)%nat -> at_ (aset l j v) i = if (i =? j)%nat then v else at_ l i.
Proof. intros H. unfold at_. destruct (Nat.eqb_spec i j) as [->|D]; [apply nth_aset_eq; exact H|apply nth_aset_neq; exact D]. Qed.
Lemma pairs_ok bf t (Q : nat -> Z * Z -> Prop) : forall n j x, (n <= t)%nat -> (j + n + t <= length x)%nat ->
  (forall p, (j <= p < j + n)%nat -> exists r, bf (at_ x p) (at_ x (p + t)) = Some r /\ Q p r) ->
  exists y, pairs_loop bf t n j x = Some y /\ length y = length x /\
    (forall p, (j <= p < j + n)%nat -> exists r, Q p r /\ at_ y p = fst r /\ at_ y (p + t) = snd r) /\
    (forall p, ~ (j <= p < j + n)%nat -> ~ (j + t <= p < j + n + t)%nat -> at_ y p = at_ x p).
Proof.
  induction n as [|n IH]; intros j x Hn HL H; cbn [pairs_loop]; [exists x; split; [reflexivity|]; split; [reflexivity|]; split; [intros; lia|reflexivity]|].
  destruct (H j ltac:(lia)) as [r [E HQ]]. unfold pair_step. rewrite E. cbn [bind]. set (x' := aset (aset x j (fst r)) (j + t) (snd r)). assert (L' : length x' = length x) by (unfold x'; rewrite !aset_length; reflexivity).
  assert (K : forall p, p <> j -> p <> (j + t)%nat -> at_ x' p = at_ x p) by (intros p D1 D2; unfold x', at_; rewrite !nth_aset_neq by assumption; reflexivity).
  destruct (IH (S j) x' ltac:(lia) ltac:(lia)) as [y [Y1 [Y2 [Y3 Y4]]]].
  - intros p Hp. rewrite !K by lia. apply H. lia.
  - exists y. split; [exact Y1|]. split; [congruence|]. split.
    + intros p Hp. destruct (Nat.eq_dec p j) as [->|D]; [|apply Y3; lia]. exists r. split; [exact HQ|]. rewrite !Y4 by lia. unfold x', at_. split.
      * rewrite nth_aset_neq by lia. apply nth_aset_eq. lia.
      * apply nth_aset_eq. rewrite aset_length. lia.
    + intros p D1 D2. rewrite Y4 by lia. apply K; lia.
Qed.
Lemma blocks_ok bf tbl m t (Q : nat -> nat -> Z * Z -> Prop) : forall n i x, (1 <= t)%nat -> ((i + n) * (2 * t) <= length x)%nat ->
  (forall b o, (i <= b < i + n)%nat -> (o < t)%nat -> exists r, bf (at_ tbl (m + b)) (at_ x (b * (2 * t) + o)) (at_ x (b * (2 * t) + o + t)) = Some r /\ Q b o r) ->
  exists y, blocks_loop bf tbl m t n i (i * (2 * t)) x = Some y /\ length y = length x /\
    (forall b o, (i <= b < i + n)%nat -> (o < t)%nat -> exists r, Q b o r /\ at_ y (b * (2 * t) + o) = fst r /\ at_ y (b * (2 * t) + o + t) = snd r) /\
    (forall p, (p < i * (2 * t))%nat -> at_ y p = at_ x p).
Proof.
  induction n as [|n IH]; intros i x Ht HL H; cbn [blocks_loop]; [exists x; split; [reflexivity|]; split; [reflexivity|]; split; [intros; lia|reflexivity]|].
  assert (HL' : (i * (2 * t) + 2 * t <= length x)%nat) by (rewrite Nat.mul_add_distr_r in HL; lia).
  destruct (pairs_ok (bf (at_ tbl (m + i))) t (fun p r => Q i (p - i * (2 * t))%nat r) t (i * (2 * t)) x ltac:(lia) ltac:(lia)) as [x' [X1 [X2 [X3 X4]]]].
  { intros p Hp. destruct (H i (p - i * (2 * t))%nat ltac:(lia) ltac:(lia)) as [r R]. replace (i * (2 * t) + (p - i * (2 * t)))%nat with p in R by lia. exists r. exact R. }
  rewrite X1. cbn [bind]. replace (i * (2 * t) + 2 * t)%nat with (S i * (2 * t))%nat by lia.
  destruct (IH (S i) x' Ht) as [y [Y1 [Y2 [Y3 Y4]]]].
  - rewrite X2. replace (S i + n)%nat with (i + S n)%nat by lia. exact HL.
  - intros b o Hb Ho. assert (i * (2 * t) + 2 * t <= b * (2 * t))%nat by (replace (i * (2 * t) + 2 * t)%nat with (S i * (2 * t))%nat by lia; apply Nat.mul_le_mono_r; lia). rewrite !X4 by lia. apply H; lia.
  - exists y. split; [exact Y1|]. split; [congruence|]. split.
    + intros b o Hb Ho. destruct (Nat.eq_dec b i) as [->|D]; [|apply Y3; lia]. destruct (X3 (i * (2 * t) + o)%nat ltac:(lia)) as [r [R1 [R2 R3]]]. replace (i * (2 * t) + o - i * (2 * t))%nat with o in R1 by lia.
      exists r. split; [exact R1|]. rewrite !Y4 by lia. split; assumption.
    + intros p Hp. rewrite Y4 by lia. apply X4; lia.
Qed.

(** ** forward *)
Definition bnd (B : Z) (x : list Z) : Prop := length x = N /\ forall p, (p < N)%nat -> 0 <= at_ x p <= B.
Definition lev (g : Z) (a : poly) (T m : nat) (x : list Z) : Prop := forall i o, (i < m)%nat -> (o < T)%nat -> cgq (at_ x (i * T + o)) (RR * (g * Sv a T m i o)).
Lemma idx_lt i o t m : (i < m)%nat -> (o < 2 * t)%nat -> (m * (2 * t) = N)%nat -> (i * (2 * t) + o < N)%nat.
Proof. intros H1 H2 H3. rewrite <- H3. apply Nat.lt_le_trans with (S i * (2 * t))%nat; [lia|]. apply Nat.mul_le_mono_r. lia. Qed.
(** positions of level 2m, block length t, in terms of level m *)
Lemma split_blocks (P : nat -> Prop) t m : (forall b o, (b < m)%nat -> (o < t)%nat -> P (b * (2 * t) + o)%nat /\ P (b * (2 * t) + o + t)%nat) -> forall p, (p < m * (2 * t))%nat -> P p.
Proof.
  intros H p Hp. assert (Ht : (2 * t <> 0)%nat) by lia. pose proof (Nat.div_mod p (2 * t) Ht) as E. pose proof (Nat.mod_upper_bound p (2 * t) Ht) as U. assert (Hb : (p / (2 * t) < m)%nat) by (apply Nat.div_lt_upper_bound; lia).
  set (b := (p / (2 * t))%nat) in *. set (o := (p mod (2 * t))%nat) in *. destruct (Nat.lt_ge_cases o t) as [L|L].
  - replace p with (b * (2 * t) + o)%nat by lia. apply (H b o Hb L).
  - replace p with (b * (2 * t) + (o - t) + t)%nat by lia. apply (H b (o - t)%nat Hb ltac:(lia)).
Qed.
Lemma even_split i m : (i < 2 * m)%nat -> exists b, (b < m)%nat /\ (i = 2 * b \/ i = 2 * b + 1)%nat.
Proof. intros H. exists (i / 2)%nat. pose proof (Nat.div_mod i 2 ltac:(lia)). pose proof (Nat.mod_upper_bound i 2 ltac:(lia)). split; [apply Nat.div_lt_upper_bound; lia|]. destruct (i mod 2)%nat as [|[|]]; lia. Qed.
Lemma ntt_layer B t m x a : (1 <= t)%nat -> (1 <= m)%nat -> (m * (2 * t) = N)%nat -> 0 <= B <= 20 * q + 2 -> bnd B x -> 
  exists y, blocks_loop ntt_bf ROOTS m t m 0 0 x = Some y /\ bnd (B + 2 * q) y /\ (lev 1 a (2 * t) m x -> lev 1 a t (2 * m) y).
Proof.
  intros Ht Hm HN HB [HL HX]. assert (M5 : (m <= 512)%nat) by (unfold N in HN; nia).
  destruct (blocks_ok ntt_bf ROOTS m t (fun b o r => exists v, cgq (v * RR) (at_ x (b * (2 * t) + o + t) * at_ ROOTS (m + b)) /\ 0 <= v <= q + 1 /\ fst r = at_ x (b * (2 * t) + o) + v /\ snd r = at_ x (b * (2 * t) + o) + 2 * q - v) m 0 x Ht ltac:(rewrite Nat.add_0_l; lia)) as [y [Y1 [Y2 [Y3 _]]]].
  { intros b o Hb Ho. destruct (root_facts (m + b) ltac:(lia)) as [_ [_ [W _]]]. pose proof (HX _ (idx_lt b o t m ltac:(lia) ltac:(lia) HN)) as U. pose proof (HX (b * (2 * t) + o + t)%nat ltac:(rewrite <- Nat.add_assoc; apply (idx_lt b (o + t) t m); lia)) as V.
    set (u := at_ x (b * (2 * t) + o)) in *. set (w := at_ x (b * (2 * t) + o + t)) in *. set (s := at_ ROOTS (m + b)) in *. unfold q in *.
    destruct (modmul_spec w s 1) as [z [E [C Z]]]; [change (2 ^ 31) with 2147483648; lia|change (2 ^ 29) with 536870912; lia| |].
    { apply Z.le_trans with (245782 * s); [apply Z.mul_le_mono_nonneg_r; lia|unfold RR; change (2 ^ 32) with 4294967296; lia]. }
    unfold q in Z. exists (u + z, u + 2 * 12289 - z). split; [|exists z; cbn [fst snd]; auto].
    unfold ntt_bf. rewrite E. cbn [bind]. rewrite add_ok by (change (2 ^ 31) with 2147483648; lia). cbn [bind]. change (mul32 2 PRIME) with (Some (2 * 12289)). cbn [bind]. rewrite add_ok by (change (2 ^ 31) with 2147483648; lia). cbn [bind]. rewrite sub_ok by (change (2 ^ 31) with 2147483648; lia). reflexivity. }
  exists y. split; [exact Y1|]. split.
  - split; [congruence|]. rewrite <- HN. apply (split_blocks (fun p => 0 <= at_ y p <= B + 2 * q)). intros b o Hb Ho. destruct (Y3 b o ltac:(lia) Ho) as [r [[v [_ [V [R1 R2]]]] [R3 R4]]].
    pose proof (HX _ (idx_lt b o t m ltac:(lia) ltac:(lia) HN)) as U. rewrite R3, R4, R1, R2. unfold q in *. lia.
  - intros HLV i o Hi Ho. destruct (even_split i m Hi) as [b [Hb Hi']]. destruct (Y3 b o ltac:(lia) Ho) as [r [[v [V [_ [R1 R2]]]] [R3 R4]]].
    destruct (Sv_step a t m b o Hm ltac:(lia)) as [S1 S2]. pose proof (HLV b o Hb ltac:(lia)) as X1. pose proof (HLV b (o + t)%nat Hb ltac:(lia)) as X2. rewrite Nat.add_assoc in X2.
    assert (V' : cgq v (RR * (Wt (m + b) * Sv a (2 * t) m b (o + t)))). { apply cancelR. rewrite V, X2, Wt_rep. apply cgq_eq; ring. }
    destruct Hi' as [->| ->].
    + replace (2 * b * t + o)%nat with (b * (2 * t) + o)%nat by lia. rewrite R3, R1, X1, V', S1. apply cgq_eq; ring.
    + replace ((2 * b + 1) * t + o)%nat with (b * (2 * t) + o + t)%nat by lia. rewrite R4, R2. replace (at_ x (b * (2 * t) + o) + 2 * q - v) with (at_ x (b * (2 * t) + o) - v + 2 * q) by ring. rewrite cgq_k, X1, V', S2. apply cgq_eq; ring.
Qed.
Lemma ntt_loop_ok a : forall k B t m x, (t = 2 ^ k / 2)%nat -> (1 <= m)%nat -> (m * 2 ^ k = N)%nat -> 0 <= B -> B + Z.of_nat k * (2 * q) <= 22 * q + 2 -> bnd B x ->
  exists y, ntt_loop k m t x = Some y /\ bnd (B + Z.of_nat k * (2 * q)) y /\ (lev 1 a (2 ^ k) m x -> lev 1 a 1 1024 y).
Proof.
  induction k as [|k IH]; intros B t m x -> Hm HN HB HBk HX.
  - assert (m = 1024)%nat by (unfold N in HN; cbn [Nat.pow] in HN; lia). subst m. exists x. split; [reflexivity|]. split; [rewrite Z.mul_0_l, Z.add_0_r; exact HX|auto].
  - assert (T : (2 ^ S k / 2 = 2 ^ k)%nat) by (rewrite Nat.pow_succ_r', Nat.mul_comm, Nat.div_mul; lia). assert (P : (1 <= 2 ^ k)%nat) by (pose proof (Nat.pow_nonzero 2 k ltac:(lia)); lia).
    cbn [ntt_loop]. rewrite T. rewrite Nat.pow_succ_r' in HN. destruct (Nat.ltb_spec m DEGREE) as [L|L]; [|exfalso; unfold DEGREE, N in *; nia].
    destruct (ntt_layer B (2 ^ k) m x a P Hm HN ltac:(unfold q in *; lia) HX) as [y [Y1 [Y2 Y3]]]. rewrite Y1. cbn [bind].
    destruct (IH (B + 2 * q) (2 ^ k / 2)%nat (m * 2)%nat y eq_refl ltac:(lia) ltac:(lia) ltac:(unfold q; lia) ltac:(unfold q in *; lia) Y2) as [z [Z1 [Z2 Z3]]].
    exists z. split; [exact Z1|]. split.
    + replace (B + Z.of_nat (S k) * (2 * q)) with (B + 2 * q + Z.of_nat k * (2 * q)) by lia. exact Z2.
    + intros H. apply Z3. rewrite (Nat.mul_comm m 2). apply Y3. rewrite Nat.pow_succ_r' in H. exact H.
Qed.
(** evaluation at the p-th root *)
Definition zeta (p : nat) : Z := cc (1024 + p).
Definition ev (a : poly) (p : nat) : Z := sum (fun k => a k * pw (zeta p) k) N.
Lemma Sv_bottom a p : Sv a 1 1024 p 0 = ev a p.
Proof. unfold Sv, ev, zeta. apply sum_ext. intros i _. f_equal. f_equal. lia. Qed.
Lemma map_bnd f x B Q : bnd B x -> (forall v, 0 <= v <= B -> exists z, f v = Some z /\ Q v z) -> exists y, map_opt f x = Some y /\ length y = N /\ forall p, (p < N)%nat -> Q (at_ x p) (at_ y p).
Proof.
  intros [HL HX] H. destruct (map_opt_nth 0 0 f (fun i z => Q (at_ x i) z) x) as [y [Y1 [Y2 Y3]]].
  - intros i Hi. apply H. apply HX. rewrite <- HL. exact Hi.
  - exists y. split; [exact Y1|]. split; [congruence|]. rewrite HL in Y3. exact Y3.
Qed.
Theorem ntt_ok x : bnd 500000 x -> exists y, ntt x = Some y /\ bnd (21 * q + 2) y /\ forall p, (p < N)%nat -> cgq (at_ y p) (RR * ev (of_list x) p).
Proof.
  intros HX. unfold ntt. destruct (map_bnd nres x 500000 (fun v z => cgq z (RR * v) /\ 0 <= z <= q + 2) HX) as [w [W1 [W2 W3]]].
  { intros v Hv. destruct (nres_spec v) as [z [E [C Z]]]; [change (2 ^ 31) with 2147483648; lia|]. exists z. split; [exact E|]. split; [exact C|]. assert (v * R2MODP / RR < 1) by (apply Z.div_lt_upper_bound; [reflexivity|unfold R2MODP, RR; change (2 ^ 32) with 4294967296; lia]). lia. }
  rewrite W1. cbn [bind]. destruct (ntt_loop_ok (of_list x) 10 (q + 2) (DEGREE / 2) 1 w eq_refl (le_n 1) eq_refl ltac:(unfold q; lia) ltac:(unfold q; lia)) as [y [Y1 [Y2 Y3]]].
  - split; [exact W2|]. intros p Hp. apply W3. exact Hp.
  - change LGN with 10%nat. exists y. split; [exact Y1|]. split.
    + destruct Y2 as [Y2 Y4]. split; [exact Y2|]. intros p Hp. specialize (Y4 p Hp). unfold q in *. lia.
    + intros p Hp. assert (L : lev 1 (of_list x) 1 1024 y). { apply Y3. intros i o Hi Ho. assert (i = 0)%nat by lia. subst i. change (2 ^ 10)%nat with 1024%nat in *. rewrite Nat.mul_0_l, Nat.add_0_l, Sv_top, Z.mul_1_l. apply W3. exact Ho. }
      specialize (L p 0%nat Hp ltac:(lia)). rewrite Nat.mul_1_r, Nat.add_0_r, Sv_bottom, Z.mul_1_l in L. exact L.
Qed.

(** ** backward *)
Definition BI (l : nat) : Z := 2 ^ Z.of_nat l * (q + 55).
Lemma BI_S l : BI (S l) = 2 * BI l. Proof. unfold BI. rewrite Nat2Z.inj_succ, Z.pow_succ_r by lia. ring. Qed.
Lemma BI_0 l : q + 55 <= BI l. Proof. unfold BI. pose proof (pow2_pos (Z.of_nat l) ltac:(lia)). unfold q. lia. Qed.
Lemma BI_9 l : (l <= 9)%nat -> BI l <= 512 * (q + 55). Proof. intros H. unfold BI. apply Z.mul_le_mono_nonneg_r; [unfold q; lia|]. change 512 with (2 ^ 9). apply Z.pow_le_mono_r; lia. Qed.
Lemma intt_w_ok u v : 0 <= u <= 512 * (q + 55) -> 0 <= v <= 512 * (q + 55) -> intt_w u v = Some (u + 1024 * q - v).
Proof.
  intros Hu Hv. unfold intt_w. change (mul32 (Z.of_nat DEGREE) PRIME) with (Some (1024 * q)). cbn [bind]. unfold q in *. rewrite add_ok by (change (2 ^ 31) with 2147483648; lia). cbn [bind]. apply sub_ok. change (2 ^ 31) with 2147483648; lia.
Qed.
Lemma intt_layer l t m x : (l <= 8)%nat -> (1 <= t)%nat -> (1 <= m)%nat -> (m * (2 * t) = N)%nat -> bnd (BI l) x ->
  exists y, blocks_loop intt_bf IROOTS m t m 0 0 x = Some y /\ bnd (BI (S l)) y /\ (forall a g, lev g a t (2 * m) x -> lev (2 * g) a (2 * t) m y).
Proof.
  intros Hl Ht Hm HN [HL HX]. assert (M5 : (m <= 512)%nat) by (unfold N in HN; nia). pose proof (BI_9 l ltac:(lia)) as B9.
  destruct (blocks_ok intt_bf IROOTS m t (fun b o r => fst r = at_ x (b * (2 * t) + o) + at_ x (b * (2 * t) + o + t) /\ cgq (snd r * RR) ((at_ x (b * (2 * t) + o) - at_ x (b * (2 * t) + o + t)) * at_ IROOTS (m + b)) /\ 0 <= snd r <= q + 55) m 0 x Ht ltac:(rewrite Nat.add_0_l; lia)) as [y [Y1 [Y2 [Y3 _]]]].
  { intros b o Hb Ho. destruct (root_facts (m + b) ltac:(lia)) as [_ [_ [_ W]]]. pose proof (HX _ (idx_lt b o t m ltac:(lia) ltac:(lia) HN)) as U. pose proof (HX (b * (2 * t) + o + t)%nat ltac:(rewrite <- Nat.add_assoc; apply (idx_lt b (o + t) t m); lia)) as V.
    set (u := at_ x (b * (2 * t) + o)) in *. set (v := at_ x (b * (2 * t) + o + t)) in *. set (s := at_ IROOTS (m + b)) in *. unfold q in *.
    destruct (modmul_spec (u + 1024 * q - v) s 55) as [z [E [C Z]]]; [unfold q; change (2 ^ 31) with 2147483648; lia|change (2 ^ 29) with 536870912; lia| |].
    { apply Z.le_trans with (18904064 * s); [apply Z.mul_le_mono_nonneg_r; unfold q; lia|unfold RR; change (2 ^ 32) with 4294967296; lia]. }
    exists (u + v, z). split; [|cbn [fst snd]; split; [reflexivity|]; split; [|exact Z]].
    - unfold intt_bf. rewrite add_ok by (change (2 ^ 31) with 2147483648; lia). cbn [bind]. rewrite intt_w_ok by (unfold q; lia). cbn [bind]. rewrite E. reflexivity.
    - rewrite C. replace ((u + 1024 * q - v) * s) with ((u - v) * s + 1024 * s * q) by ring. apply cgq_k. }
  exists y. split; [exact Y1|]. split.
  - split; [congruence|]. rewrite <- HN. apply (split_blocks (fun p => 0 <= at_ y p <= BI (S l))). intros b o Hb Ho. destruct (Y3 b o ltac:(lia) Ho) as [r [[R1 [_ R2]] [R3 R4]]].
    pose proof (HX _ (idx_lt b o t m ltac:(lia) ltac:(lia) HN)) as U. pose proof (HX (b * (2 * t) + o + t)%nat ltac:(rewrite <- Nat.add_assoc; apply (idx_lt b (o + t) t m); lia)) as V. rewrite R3, R4, R1, BI_S. pose proof (BI_0 l). unfold q in *. lia.
  - intros a g HLV i o Hi Ho. 
    assert (G : forall o, (o < t)%nat -> cgq (at_ y (i * (2 * t) + o)) (RR * (2 * g * Sv a (2 * t) m i o)) /\ cgq (at_ y (i * (2 * t) + o + t)) (RR * (2 * g * Sv a (2 * t) m i (o + t)))).
    { clear o Ho. intros o Ho. destruct (Y3 i o ltac:(lia) Ho) as [r [[R1 [V _]] [R3 R4]]].
      destruct (Sv_step a t m i o Hm ltac:(lia)) as [S1 S2]. pose proof (HLV (2 * i)%nat o ltac:(lia) Ho) as X1. pose proof (HLV (2 * i + 1)%nat o ltac:(lia) Ho) as X2.
      replace (2 * i * t + o)%nat with (i * (2 * t) + o)%nat in X1 by lia. replace ((2 * i + 1) * t + o)%nat with (i * (2 * t) + o + t)%nat in X2 by lia. rewrite S1 in X1. rewrite S2 in X2. split.
      - rewrite R3, R1, X1, X2. apply cgq_eq; ring.
      - rewrite R4. apply cancelR. rewrite V, X1, X2. destruct (root_facts (m + i) ltac:(lia)) as [_ [IW _]].
        set (A := Sv a (2 * t) m i o). set (D := Sv a (2 * t) m i (o + t)). set (w := Wt (m + i)) in *. set (s := at_ IROOTS (m + i)) in *.
        transitivity (RR * (2 * g * D) * (s * w)); [apply cgq_eq; ring|]. apply cgq_mul; [reflexivity|].
        transitivity (RI * s * w * RR); [|rewrite IW, Z.mul_1_l; reflexivity]. transitivity (s * w * (RI * RR)); [rewrite RI_ok, Z.mul_1_r; reflexivity|apply cgq_eq; ring]. }
    destruct (Nat.lt_ge_cases o t) as [L|L]; [apply G; exact L|]. pose proof (proj2 (G (o - t)%nat ltac:(lia))) as G2. replace (i * (2 * t) + (o - t) + t)%nat with (i * (2 * t) + o)%nat in G2 by lia. replace (o - t + t)%nat with o in G2 by lia. exact G2.
Qed.
Lemma intt_loop_ok : forall k l t x, (k + l = 9)%nat -> (t = 2 ^ l)%nat -> bnd (BI l) x ->
  exists y, intt_loop (S k) (2 ^ k) t x = Some y /\ bnd (BI 9) y /\ (forall a g, lev g a t (2 * 2 ^ k) x -> lev (2 ^ Z.of_nat k * g) a 512 2 y).
Proof.
  induction k as [|k IH]; intros l t x Hk -> HX.
  - cbn [intt_loop Nat.pow Nat.ltb Nat.leb]. assert (l = 9)%nat by lia. subst l. exists x. split; [reflexivity|]. split; [exact HX|]. intros a g H. cbn [Z.of_nat]. change (2 ^ 0) with 1. rewrite Z.mul_1_l. exact H.
  - assert (P : (1 <= 2 ^ k)%nat) by (pose proof (Nat.pow_nonzero 2 k ltac:(lia)); lia). assert (P' : (1 <= 2 ^ l)%nat) by (pose proof (Nat.pow_nonzero 2 l ltac:(lia)); lia).
    cbn [intt_loop]. rewrite Nat.pow_succ_r'. destruct (Nat.ltb_spec 1 (2 * 2 ^ k)) as [L|L]; [|lia].
    assert (HN : (2 * 2 ^ k * (2 * 2 ^ l) = N)%nat). { replace (2 * 2 ^ k * (2 * 2 ^ l))%nat with (2 * 2 * (2 ^ k * 2 ^ l))%nat by lia. rewrite <- Nat.pow_add_r. replace (k + l)%nat with 8%nat by lia. reflexivity. }
    destruct (intt_layer l (2 ^ l) (2 * 2 ^ k) x ltac:(lia) P' ltac:(lia) HN HX) as [y [Y1 [Y2 Y3]]]. rewrite Y1. cbn [bind].
    replace (2 * 2 ^ k / 2)%nat with (2 ^ k)%nat by (rewrite Nat.mul_comm, Nat.div_mul; lia).
    destruct (IH (S l) (2 ^ l * 2)%nat y ltac:(lia) ltac:(rewrite Nat.pow_succ_r'; lia) Y2) as [z [Z1 [Z2 Z3]]]. exists z. split; [exact Z1|]. split; [exact Z2|].
    intros a g H. replace (2 ^ Z.of_nat (S k) * g) with (2 ^ Z.of_nat k * (2 * g)) by (rewrite Nat2Z.inj_succ, Z.pow_succ_r by lia; ring). apply Z3. rewrite (Nat.mul_comm (2 ^ l) 2). apply Y3. exact H.
Qed.
Theorem intt_ok x : bnd (q + 55) x -> exists y, intt x = Some y /\ length y = N /\ (forall p, (p < N)%nat -> 0 <= at_ y p < q) /\
  (forall a, (forall p, (p < N)%nat -> cgq (at_ x p) (RR * ev a p)) -> forall j, (j < N)%nat -> cgq (at_ y j) (a j)).
Proof.
  intros HX. unfold intt. change (intt_loop LGN (DEGREE / 2) 1 x) with (intt_loop 10 (2 ^ 9) 1 x). destruct (intt_loop_ok 9 0 1 x eq_refl eq_refl) as [w [W1 [[W2 W3] W4]]]; [unfold BI; cbn [Z.of_nat]; change (2 ^ 0) with 1; rewrite Z.mul_1_l; exact HX|].
  rewrite W1. cbn [bind]. change (DEGREE / 2)%nat with 512%nat. change (BI 9) with (512 * (q + 55)) in W3.
  assert (I1 : cgq INV (RR * (RI * INV))) by (rewrite Z.mul_assoc, (Z.mul_comm RR RI), RI_ok, Z.mul_1_l; reflexivity).
  destruct (pairs_ok last_bf 512 (fun p r => cgq (fst r * RR) ((at_ w p + at_ w (p + 512)) * INV) /\ 0 <= fst r <= q + 55 /\ cgq (snd r * RR) ((at_ w p - at_ w (p + 512)) * INVPR) /\ 0 <= snd r <= q + 55) 512 0 w (le_n _) ltac:(rewrite W2; unfold N; lia)) as [y [Y1 [Y2 [Y3 _]]]].
  { intros p Hp. pose proof (W3 p ltac:(unfold N; lia)) as U. pose proof (W3 (p + 512)%nat ltac:(unfold N; lia)) as V. set (u := at_ w p) in *. set (v := at_ w (p + 512)) in *. unfold q in U, V.
    destruct (modmul_spec (u + 1024 * q - v) INVPR 55) as [z [E [C Z]]]; [unfold q; change (2 ^ 31) with 2147483648; lia|unfold INVPR; change (2 ^ 29) with 536870912; lia|unfold q, INVPR, RR; change (2 ^ 32) with 4294967296; lia|].
    destruct (modmul_spec (u + v) INV 55) as [z' [E' [C' Z']]]; [change (2 ^ 31) with 2147483648; lia|unfold INV; change (2 ^ 29) with 536870912; lia|unfold INV, RR; change (2 ^ 32) with 4294967296; lia|].
    exists (z', z). split; [|cbn [fst snd]; split; [exact C'|]; split; [exact Z'|]; split; [|exact Z]].
    - unfold last_bf. rewrite intt_w_ok by (unfold q; lia). cbn [bind]. rewrite E. cbn [bind]. rewrite add_ok by (change (2 ^ 31) with 2147483648; lia). cbn [bind]. rewrite E'. reflexivity.
    - rewrite C. replace ((u + 1024 * q - v) * INVPR) with ((u - v) * INVPR + 1024 * INVPR * q) by ring. apply cgq_k. }
  rewrite Y1. cbn [bind].
  assert (HY : bnd (q + 55) y).
  { split; [congruence|]. intros p Hp. destruct (Nat.lt_ge_cases p 512) as [L|L].
    - destruct (Y3 p ltac:(lia)) as [r [[_ [R _]] [R1 _]]]. rewrite R1. exact R.
    - destruct (Y3 (p - 512)%nat ltac:(unfold N in Hp; lia)) as [r [[_ [_ [_ R]]] [_ R1]]]. replace (p - 512 + 512)%nat with p in R1 by lia. rewrite R1. exact R. }
  destruct (map_bnd out_step y (q + 55) (fun v z => 0 <= z < q /\ cgq (z * RR) v) HY) as [z [Z1 [Z2 Z3]]].
  { intros v Hv. unfold out_step. rewrite u64_id by (unfold q in Hv; change (2 ^ 31) with 2147483648; lia). destruct (redc_spec v) as [s [E [C [L U]]]]; [unfold q in Hv; change (2 ^ 60) with 1152921504606846976; lia|]. rewrite E. cbn [bind].
    assert (s <= q) by (unfold RR, q in *; change (2 ^ 32) with 4294967296 in *; lia). exists (s mod q). split; [apply (fix_up_spec s); unfold q in *; lia|]. split; [apply Z.mod_pos_bound; reflexivity|]. rewrite <- C. apply cgq_mul; [|reflexivity]. apply cgq_red. }
  exists z. split; [exact Z1|]. split; [exact Z2|]. split; [intros p Hp; apply Z3; exact Hp|].
  intros a HA. assert (L : lev 512 a 512 2 w). { pose proof (W4 a 1) as G. change (2 ^ Z.of_nat 9 * 1) with 512 in G. apply G. intros i o Hi Ho. assert (o = 0)%nat by lia. subst o. change (2 * 2 ^ 9)%nat with 1024%nat in *. rewrite Nat.mul_1_r, Nat.add_0_r, Sv_bottom, Z.mul_1_l. apply HA. exact Hi. }
  assert (KEY : forall o, (o < 512)%nat -> cgq (at_ y o) (RR * a o) /\ cgq (at_ y (o + 512)) (RR * a (o + 512)%nat)).
  { intros o Ho. destruct (Y3 o ltac:(lia)) as [r [[C1 [_ [C2 _]]] [R1 R2]]]. destruct (Sv_step a 512 1 0 o (le_n 1) ltac:(lia)) as [S1 S2]. change (2 * 512)%nat with 1024%nat in *. rewrite !Sv_top in S1, S2. change (2 * 1)%nat with 2%nat in *. change (2 * 0)%nat with 0%nat in *. change (0 + 1)%nat with 1%nat in *. change (1 + 0)%nat with 1%nat in *.
    pose proof (L 0%nat o ltac:(lia) Ho) as X1. pose proof (L 1%nat o ltac:(lia) Ho) as X2. rewrite Nat.mul_0_l, Nat.add_0_l, S1 in X1. rewrite Nat.mul_1_l, (Nat.add_comm 512 o), S2 in X2. rewrite R1, R2.
    split; apply cancelR.
    - rewrite C1, X1, X2. transitivity (RR * a o * (1024 * INV)); [apply cgq_eq; ring|]. apply cgq_mul; [reflexivity|]. apply cgq_mod. vm_compute. reflexivity.
    - rewrite C2, X1, X2. transitivity (RR * a (o + 512)%nat * (1024 * Wt 1 * INVPR)); [apply cgq_eq; ring|]. apply cgq_mul; [reflexivity|]. apply cgq_mod. vm_compute. reflexivity. }
  intros j Hj. apply cancelR. rewrite (proj2 (Z3 j Hj)). rewrite Z.mul_comm. destruct (Nat.lt_ge_cases j 512) as [L1|L1]; [rewrite Z.mul_comm; rewrite (proj1 (KEY j L1)); rewrite Z.mul_comm; reflexivity|].
  pose proof (proj2 (KEY (j - 512)%nat ltac:(unfold N in Hj; lia))) as K. replace (j - 512 + 512)%nat with j in K by lia. rewrite K. rewrite Z.mul_comm. reflexivity.
Qed.
