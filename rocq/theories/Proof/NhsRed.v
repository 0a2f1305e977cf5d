(** NewHope: congruences modulo q, Montgomery reduction, finite sums. *)
From Verif Require Import Base.Word Base.Arr Model.Nhs Spec.NhsSpec.
From Coq Require Import Lia Setoid Morphisms.

(** ** congruences modulo q *)
#[global] Instance cgq_equiv : Equivalence cgq.
Proof. split; unfold cgq; [intros x; reflexivity|intros x y H; symmetry; exact H|intros x y z H1 H2; congruence]. Qed.
Lemma q_pos : 0 < q. Proof. reflexivity. Qed.
Lemma q_nz : q <> 0. Proof. discriminate. Qed.
#[global] Instance cgq_add : Proper (cgq ==> cgq ==> cgq) Z.add.
Proof. intros a b H c d G. unfold cgq in *. rewrite Z.add_mod, H, G, <- Z.add_mod by exact q_nz. reflexivity. Qed.
#[global] Instance cgq_mul : Proper (cgq ==> cgq ==> cgq) Z.mul.
Proof. intros a b H c d G. unfold cgq in *. rewrite Z.mul_mod, H, G, <- Z.mul_mod by exact q_nz. reflexivity. Qed.
#[global] Instance cgq_sub : Proper (cgq ==> cgq ==> cgq) Z.sub.
Proof. intros a b H c d G. unfold cgq in *. rewrite Zminus_mod, H, G, <- Zminus_mod. reflexivity. Qed.
#[global] Instance cgq_opp : Proper (cgq ==> cgq) Z.opp.
Proof. intros a b H. rewrite <- !Z.sub_0_l. rewrite H. reflexivity. Qed.
Lemma cgq_iff a b : cgq a b <-> exists k, a = b + k * q.
Proof.
  unfold cgq. split.
  - intros H. exists (a / q - b / q). pose proof (Z.div_mod a q q_nz). pose proof (Z.div_mod b q q_nz). rewrite Z.mul_sub_distr_r. lia.
  - intros [k ->]. apply Z_mod_plus_full.
Qed.
Lemma cgq_k a k : cgq (a + k * q) a. Proof. apply cgq_iff. exists k. reflexivity. Qed.
Lemma cgq_mod a b : cgq a b <-> a mod q = b mod q. Proof. reflexivity. Qed.
Lemma cgq_red a : cgq (a mod q) a. Proof. unfold cgq. apply Z.mod_mod. exact q_nz. Qed.
Definition RI : Z := 11857.
Lemma RI_ok : cgq (RI * RR) 1. Proof. reflexivity. Qed.
Lemma cancelR a b : cgq (a * RR) (b * RR) -> cgq a b.
Proof. intros H. assert (G : cgq (a * RR * RI) (b * RR * RI)) by (rewrite H; reflexivity). rewrite <- !Z.mul_assoc, (Z.mul_comm RR RI), RI_ok, !Z.mul_1_r in G. exact G. Qed.
Lemma cancel_unit u v a b : cgq (u * v) 1 -> cgq (a * u) (b * u) -> cgq a b.
Proof. intros U H. assert (G : cgq (a * u * v) (b * u * v)) by (rewrite H; reflexivity). rewrite <- !Z.mul_assoc, U, !Z.mul_1_r in G. exact G. Qed.

Lemma cgq_eq a b : a = b -> cgq a b. Proof. intros ->. reflexivity. Qed.
#[global] Opaque cgq.

(** ** Montgomery reduction *)
Lemma redc_spec t : 0 <= t < 2 ^ 60 -> exists z, redc t = Some z /\ cgq (z * RR) t /\ 0 <= z /\ z * RR <= t + (RR - 1) * q.
Proof.
  intros Ht. unfold redc. cbv zeta. set (m := wrapu 32 (wrapu 32 t * ND)). assert (Hm : 0 <= m < RR) by (apply Z.mod_pos_bound; reflexivity).
  unfold mul64, add64. change PRIME with q. unfold RR, q in *. assert (2 ^ 60 = 1152921504606846976) by reflexivity. change (2 ^ 32) with 4294967296 in *. rewrite chku_ok by (change (2 ^ 64) with 18446744073709551616; lia). cbn [bind]. rewrite chku_ok by (change (2 ^ 64) with 18446744073709551616; lia). cbn [bind].
  rewrite Z.shiftr_div_pow2 by lia. change (2 ^ 32) with 4294967296. set (a := m * 12289 + t).
  assert (D : a mod 4294967296 = 0).
  { unfold a, m, wrapu. change (2 ^ 32) with 4294967296. rewrite Z.add_mod, Z.mul_mod_idemp_l, <- Z.mul_assoc, Z.mul_mod_idemp_l, Z.mul_assoc, <- Z.add_mod by discriminate.
    replace (t * ND * 12289 + t) with (t * (ND * 12289 + 1)) by ring. rewrite Z.mul_mod by discriminate. change ((ND * 12289 + 1) mod 4294967296) with 0. rewrite Z.mul_0_r. reflexivity. }
  pose proof (Z.div_mod a 4294967296 ltac:(discriminate)) as E. rewrite D, Z.add_0_r in E. set (z := a / 4294967296) in *.
  assert (B : 0 <= z <= 2 ^ 30) by (change (2 ^ 30) with 1073741824; unfold a in E; lia).
  exists z. rewrite wrap_id by (change (2 ^ 30) with 1073741824 in B; change (2 ^ (32 - 1)) with 2147483648; lia). split; [reflexivity|]. split; [|split; [apply B|]].
  - rewrite Z.mul_comm, <- E. unfold a. rewrite Z.add_comm. exact (cgq_k t m).
  - rewrite Z.mul_comm, <- E. unfold a. lia.
Qed.
Lemma u64_id x : 0 <= x < 2 ^ 31 -> as_u64 x = x.
Proof. intros H. unfold as_u64, wrapu. apply Z.mod_small. change (2 ^ 64) with 18446744073709551616. change (2 ^ 31) with 2147483648 in H. lia. Qed.
(** the bound used everywhere: with a*b <= (k+1) * 2^32 the result is at most q + k *)
Lemma modmul_spec a b k : 0 <= a < 2 ^ 31 -> 0 <= b < 2 ^ 29 -> a * b <= k * RR -> exists z, modmul a b = Some z /\ cgq (z * RR) (a * b) /\ 0 <= z <= q + k.
Proof.
  intros Ha Hb Hk. unfold modmul. change (2 ^ 29) with 536870912 in Hb. change (2 ^ 31) with 2147483648 in Ha. rewrite !u64_id by (change (2 ^ 31) with 2147483648; lia). unfold mul64.
  assert (P : 0 <= a * b < 2 ^ 60) by (split; [apply Z.mul_nonneg_nonneg; lia|apply Z.le_lt_trans with (2147483648 * b); [apply Z.mul_le_mono_nonneg_r; lia|change (2 ^ 60) with (2147483648 * 536870912); lia]]).
  rewrite chku_ok by (change (2 ^ 60) with 1152921504606846976 in P; change (2 ^ 64) with 18446744073709551616; lia). cbn [bind].
  destruct (redc_spec (a * b) P) as [z [E [C [L U]]]]. exists z. split; [exact E|]. split; [exact C|]. split; [exact L|]. unfold RR, q in *. change (2 ^ 32) with 4294967296 in *. lia.
Qed.
(** with both factors in Montgomery form *)
Lemma modmul_rep a b k A B : 0 <= a < 2 ^ 31 -> 0 <= b < 2 ^ 29 -> a * b <= k * RR -> cgq a (RR * A) -> cgq b (RR * B) -> exists z, modmul a b = Some z /\ cgq z (RR * (A * B)) /\ 0 <= z <= q + k.
Proof.
  intros Ha Hb Hk HA HB. destruct (modmul_spec a b k Ha Hb Hk) as [z [E [C L]]]. exists z. split; [exact E|]. split; [|exact L]. apply cancelR. rewrite C, HA, HB. replace (RR * A * (RR * B)) with (RR * (A * B) * RR) by ring. reflexivity.
Qed.
Lemma nres_spec x : 0 <= x < 2 ^ 31 -> exists z, nres x = Some z /\ cgq z (RR * x) /\ 0 <= z <= q + x * R2MODP / RR + 1.
Proof.
  intros Hx. unfold nres. rewrite u64_id by exact Hx. unfold mul64. change (2 ^ 31) with 2147483648 in Hx. assert (P : 0 <= x * R2MODP < 2 ^ 60) by (change (2 ^ 60) with 1152921504606846976; unfold R2MODP; lia).
  rewrite chku_ok by (change (2 ^ 60) with 1152921504606846976 in P; change (2 ^ 64) with 18446744073709551616; lia). cbn [bind].
  destruct (redc_spec _ P) as [z [E [C [L U]]]]. exists z. split; [exact E|]. split.
  - apply cancelR. rewrite C. replace (RR * x * RR) with (x * (RR * RR)) by ring. apply cgq_mul; [reflexivity|]. apply cgq_mod. reflexivity.
  - split; [exact L|]. pose proof (Z.div_mod (x * R2MODP) RR ltac:(discriminate)) as D. pose proof (Z.mod_pos_bound (x * R2MODP) RR ltac:(reflexivity)). set (w := x * R2MODP) in *. set (d := w / RR) in *. unfold RR, q in *. change (2 ^ 32) with 4294967296 in *. lia.
Qed.
Lemma redc_small x X : 0 <= x < q -> cgq x (RR * X) -> exists z, redc (as_u64 x) = Some z /\ cgq z X /\ 0 <= z < q.
Proof.
  intros Hx HX. rewrite u64_id by (unfold q in Hx; change (2 ^ 31) with 2147483648; lia). destruct (redc_spec x) as [z [E [C [L U]]]]; [unfold q in Hx; change (2 ^ 60) with 1152921504606846976; lia|].
  exists z. split; [exact E|]. split; [apply cancelR; rewrite C, HX, Z.mul_comm; reflexivity|]. split; [exact L|]. unfold RR, q in *. change (2 ^ 32) with 4294967296 in *. lia.
Qed.
Lemma add_ok a b : - 2 ^ 31 <= a + b < 2 ^ 31 -> add32 a b = Some (a + b). Proof. intros H. apply chk_ok. exact H. Qed.
Lemma sub_ok a b : - 2 ^ 31 <= a - b < 2 ^ 31 -> sub32 a b = Some (a - b). Proof. intros H. apply chk_ok. exact H. Qed.
Lemma sar_cases x : - 2 ^ 31 <= x < 2 ^ 31 -> sar31 x = if x <? 0 then -1 else 0.
Proof.
  intros H. unfold sar31. rewrite Z.shiftr_div_pow2 by lia. destruct (Z.ltb_spec x 0).
  - symmetry. apply Z.div_unique with (x + 2 ^ 31); lia.
  - apply Z.div_small. lia.
Qed.
(** e - q, plus q when negative: the residue of anything below 2q *)
Lemma fix_up_spec e : 0 <= e < 2 * q -> fix_up e = Some (e mod q).
Proof.
  intros H. unfold fix_up. change PRIME with q. unfold q in *. rewrite sub_ok by (change (2 ^ 31) with 2147483648; lia). cbn [bind]. rewrite sar_cases by (change (2 ^ 31) with 2147483648; lia).
  destruct (Z.ltb_spec (e - 12289) 0).
  - rewrite Z.land_m1_l. rewrite add_ok by (change (2 ^ 31) with 2147483648; lia). f_equal. rewrite Z.mod_small by lia. lia.
  - rewrite Z.land_0_l. rewrite add_ok by (change (2 ^ 31) with 2147483648; lia). f_equal. apply (Z.mod_unique e 12289 1); lia.
Qed.

(** ** maps over arrays *)
Lemma map_opt_ok {A B : Type} (P : A -> Prop) (Q : A -> B -> Prop) (f : A -> option B) : (forall a, P a -> exists b, f a = Some b /\ Q a b) ->
  forall l, Forall P l -> exists r, map_opt f l = Some r /\ Forall2 Q l r.
Proof.
  intros H. induction l as [|a l IH]; intros F; [exists []; split; [reflexivity|constructor]|]. inversion_clear F as [|? ? F1 F2]. destruct (H a F1) as [b [E1 E2]]. destruct (IH F2) as [r [R1 R2]].
  exists (b :: r). cbn [map_opt]. rewrite E1. cbn [bind]. rewrite R1. split; [reflexivity|constructor; assumption].
Qed.
Lemma F2_len {A B} (Q : A -> B -> Prop) l r : Forall2 Q l r -> length l = length r.
Proof. intros H. induction H; cbn [length]; congruence. Qed.
Lemma F2_nth {A B} (Q : A -> B -> Prop) l r d e : Forall2 Q l r -> forall i, (i < length l)%nat -> Q (nth i l d) (nth i r e).
Proof. intros H. induction H as [|a b l r H1 H IH]; intros i Hi; cbn [length] in *; [lia|]. destruct i; cbn [nth]; [exact H1|]. apply IH. lia. Qed.
Lemma map_opt_nth {A B : Type} (d : A) (e : B) (f : A -> option B) (Q : nat -> B -> Prop) : forall l, (forall i, (i < length l)%nat -> exists b, f (nth i l d) = Some b /\ Q i b) ->
  exists r, map_opt f l = Some r /\ length r = length l /\ forall i, (i < length l)%nat -> Q i (nth i r e).
Proof.
  intros l. revert Q. induction l as [|a l IH]; intros Q H; [exists []; split; [reflexivity|]; split; [reflexivity|]; cbn [length]; intros; lia|].
  destruct (H 0%nat ltac:(cbn [length]; lia)) as [b [B1 B2]]. destruct (IH (fun i => Q (S i))) as [r [R1 [R2 R3]]]; [intros i Hi; apply (H (S i)); cbn [length]; lia|].
  exists (b :: r). cbn [map_opt nth] in *. rewrite B1. cbn [bind]. rewrite R1. split; [reflexivity|]. split; [cbn [length]; congruence|]. intros [|i] Hi; [exact B2|]. apply R3. cbn [length] in Hi. lia.
Qed.
Lemma map2_opt_nth (f : Z -> Z -> option Z) (Q : nat -> Z -> Prop) : forall a b, length a = length b -> (forall i, (i < length a)%nat -> exists z, f (at_ a i) (at_ b i) = Some z /\ Q i z) ->
  exists r, map2_opt f a b = Some r /\ length r = length a /\ forall i, (i < length a)%nat -> Q i (at_ r i).
Proof.
  intros a. revert Q. induction a as [|x a IH]; intros Q [|y b] L H; try discriminate L; [exists []; split; [reflexivity|]; split; [reflexivity|]; cbn [length]; intros; lia|].
  destruct (H 0%nat ltac:(cbn [length]; lia)) as [z [B1 B2]]. destruct (IH (fun i => Q (S i)) b ltac:(cbn [length] in L; lia)) as [r [R1 [R2 R3]]]; [intros i Hi; apply (H (S i)); cbn [length]; lia|].
  exists (z :: r). unfold at_ in *. cbn [map2_opt nth] in *. rewrite B1. cbn [bind]. rewrite R1. split; [reflexivity|]. split; [cbn [length]; congruence|]. intros [|i] Hi; [exact B2|]. apply R3. cbn [length] in Hi. lia.
Qed.

(** ** finite sums *)
Lemma sum_ext f g n : (forall i, (i < n)%nat -> f i = g i) -> sum f n = sum g n.
Proof. induction n as [|n IH]; intros H; [reflexivity|]. cbn [sum]. rewrite IH, H by (intros; try apply H; lia). reflexivity. Qed.
Lemma sum_cg f g n : (forall i, (i < n)%nat -> cgq (f i) (g i)) -> cgq (sum f n) (sum g n).
Proof. induction n as [|n IH]; intros H; [reflexivity|]. cbn [sum]. rewrite IH by (intros; apply H; lia). rewrite (H n) by lia. reflexivity. Qed.
Lemma sum_add f g n : sum (fun i => f i + g i) n = sum f n + sum g n.
Proof. induction n as [|n IH]; [reflexivity|]. cbn [sum]. rewrite IH. ring. Qed.
Lemma sum_scal f k n : sum (fun i => k * f i) n = k * sum f n.
Proof. induction n as [|n IH]; cbn [sum]; [ring|]. rewrite IH. ring. Qed.
Lemma sum_sub f g n : sum (fun i => f i - g i) n = sum f n - sum g n.
Proof. induction n as [|n IH]; [reflexivity|]. cbn [sum]. rewrite IH. ring. Qed.
Lemma sum_split f n m : sum f (n + m) = sum f n + sum (fun i => f (n + i)%nat) m.
Proof. induction m as [|m IH]; [rewrite Nat.add_0_r; cbn [sum]; ring|]. rewrite Nat.add_succ_r. cbn [sum]. rewrite IH. ring. Qed.
Lemma sum_even_odd f n : sum f (2 * n) = sum (fun i => f (2 * i)%nat) n + sum (fun i => f (2 * i + 1)%nat) n.
Proof. induction n as [|n IH]; [reflexivity|]. replace (2 * S n)%nat with (S (S (2 * n))) by lia. cbn [sum]. rewrite IH. replace (2 * n + 1)%nat with (S (2 * n)) by lia. ring. Qed.
Lemma sum_swap f n m : sum (fun i => sum (fun j => f i j) m) n = sum (fun j => sum (fun i => f i j) n) m.
Proof.
  induction n as [|n IH]; cbn [sum]; [induction m as [|m IHm]; cbn [sum]; [reflexivity|rewrite <- IHm; reflexivity]|]. rewrite IH, sum_add. reflexivity.
Qed.
