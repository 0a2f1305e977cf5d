(** NewHope: evaluation at the 1024 roots is injective, surjective and multiplicative. *)
From Verif Require Import Base.Word Base.Arr Model.NhsTables Model.Nhs Spec.NhsSpec Proof.NhsRed Proof.NhsNtt.
From Coq Require Import Lia Setoid Morphisms.

Definition half : Z := 6145.
Lemma half_ok : cgq (half * 2) 1. Proof. apply cgq_mod. reflexivity. Qed.
(** ** every vector of values is taken *)
Lemma level_surj : forall l, (l <= 10)%nat -> forall Y : nat -> nat -> Z, exists a, forall i o, (i < 2 ^ l)%nat -> (o < 2 ^ (10 - l))%nat -> cgq (Sv a (2 ^ (10 - l)) (2 ^ l) i o) (Y i o).
Proof.
  induction l as [|l IH]; intros Hl Y.
  - exists (Y 0%nat). intros i o Hi Ho. cbn [Nat.pow] in Hi. assert (i = 0)%nat by lia. subst i. change (2 ^ (10 - 0))%nat with 1024%nat. change (2 ^ 0)%nat with 1%nat. rewrite Sv_top. reflexivity.
  - set (m := (2 ^ l)%nat) in *. set (t := (2 ^ (10 - S l))%nat) in *. assert (T : (2 ^ (10 - l) = 2 * t)%nat) by (unfold t; rewrite <- Nat.pow_succ_r'; f_equal; lia). rewrite T in IH.
    assert (M : (1 <= m)%nat) by (unfold m; pose proof (Nat.pow_nonzero 2 l ltac:(lia)); lia).
    assert (M5 : (m <= 512)%nat) by (unfold m; change 512%nat with (2 ^ 9)%nat; apply Nat.pow_le_mono_r; lia).
    destruct (IH ltac:(lia) (fun i o => if (o <? t)%nat then half * (Y (2 * i)%nat o + Y (2 * i + 1)%nat o) else half * (RI * at_ IROOTS (m + i)) * (Y (2 * i)%nat (o - t)%nat - Y (2 * i + 1)%nat (o - t)%nat))) as [a HA].
    exists a. rewrite Nat.pow_succ_r'. fold m. intros i o Hi Ho. destruct (even_split i m Hi) as [b [Hb Hi']]. destruct (Sv_step a t m b o M ltac:(lia)) as [S1 S2].
    pose proof (HA b o Hb ltac:(lia)) as A1. pose proof (HA b (o + t)%nat Hb ltac:(lia)) as A2. cbv beta in A1, A2. destruct (Nat.ltb_spec o t); [|lia]. destruct (Nat.ltb_spec (o + t) t); [lia|]. replace (o + t - t)%nat with o in A2 by lia. rewrite A1, A2 in S1, S2.
    destruct (root_facts (m + b) ltac:(lia)) as [_ [IW _]].
    assert (E : cgq (Wt (m + b) * (half * (RI * at_ IROOTS (m + b)) * (Y (2 * b)%nat o - Y (2 * b + 1)%nat o))) (half * (Y (2 * b)%nat o - Y (2 * b + 1)%nat o))).
    { transitivity (RI * at_ IROOTS (m + b) * Wt (m + b) * (half * (Y (2 * b)%nat o - Y (2 * b + 1)%nat o))); [apply cgq_eq; ring|]. rewrite IW, Z.mul_1_l. reflexivity. }
    rewrite E in S1, S2. pose proof half_ok as HH.
    destruct Hi' as [->| ->]; [rewrite S1|rewrite S2].
    + transitivity (half * 2 * Y (2 * b)%nat o); [apply cgq_eq; ring|]. rewrite HH, Z.mul_1_l. reflexivity.
    + transitivity (half * 2 * Y (2 * b + 1)%nat o); [apply cgq_eq; ring|]. rewrite HH, Z.mul_1_l. reflexivity.
Qed.
Theorem ev_surj (X : nat -> Z) : exists a, forall p, (p < N)%nat -> cgq (ev a p) (X p).
Proof.
  destruct (level_surj 10 (le_n 10) (fun i _ => X i)) as [a H]. exists a. intros p Hp. change (2 ^ 10)%nat with 1024%nat in H. change (2 ^ (10 - 10))%nat with 1%nat in H. specialize (H p 0%nat Hp ltac:(lia)). rewrite Sv_bottom in H. exact H.
Qed.
(** ** a polynomial is determined by its values *)
Theorem ev_inj a b : (forall p, (p < N)%nat -> cgq (ev a p) (ev b p)) -> forall j, (j < N)%nat -> cgq (a j) (b j).
Proof.
  intros H. set (x := map (fun p => (RR * ev a p) mod q) (seq 0 N)).
  assert (X : forall p, (p < N)%nat -> at_ x p = (RR * ev a p) mod q). { intros p Hp. unfold x, at_. rewrite (nth_map_seq (fun p => (RR * ev a p) mod q)) by exact Hp. reflexivity. }
  destruct (intt_ok x) as [y [_ [_ [_ Y]]]].
  - split; [unfold x; rewrite map_length, seq_length; reflexivity|]. intros p Hp. rewrite X by exact Hp. pose proof (Z.mod_pos_bound (RR * ev a p) q q_pos). lia.
  - intros j Hj. transitivity (at_ y j).
    + symmetry. apply (Y a); [|exact Hj]. intros p Hp. rewrite X by exact Hp. apply cgq_red.
    + apply (Y b); [|exact Hj]. intros p Hp. rewrite X by exact Hp. rewrite cgq_red. rewrite (H p Hp). reflexivity.
Qed.
Lemma ev_add a b p : ev (fun i => a i + b i) p = ev a p + ev b p.
Proof. unfold ev. rewrite <- sum_add. apply sum_ext. intros i _. ring. Qed.
Lemma ev_sub a b p : ev (fun i => a i - b i) p = ev a p - ev b p.
Proof. unfold ev. rewrite <- sum_sub. apply sum_ext. intros i _. ring. Qed.
Lemma ev_ext a b p : (forall i, (i < N)%nat -> cgq (a i) (b i)) -> cgq (ev a p) (ev b p).
Proof. intros H. unfold ev. apply sum_cg. intros i Hi. rewrite (H i Hi). reflexivity. Qed.
(** ** the roots are roots of x^N + 1 *)
Lemma cc_root : forall l k, (l <= 10)%nat -> (2 ^ l <= k < 2 * 2 ^ l)%nat -> cgq (pw (cc k) (2 ^ l)) (-1).
Proof.
  induction l as [|l IH]; intros k Hl Hk.
  - cbn [Nat.pow] in Hk. assert (k = 1)%nat by lia. subst k. apply cgq_mod. reflexivity.
  - rewrite Nat.pow_succ_r' in *. rewrite pw_sq. assert (P : (1 <= 2 ^ l)%nat) by (pose proof (Nat.pow_nonzero 2 l ltac:(lia)); lia). assert (P5 : (2 ^ l <= 512)%nat) by (change 512%nat with (2 ^ 9)%nat; apply Nat.pow_le_mono_r; lia).
    destruct (even_split k (2 * 2 ^ l) ltac:(lia)) as [b [Hb Hk']]. destruct (root_facts b ltac:(lia)) as [R _].
    assert (E : cgq (cc k * cc k) (cc b)). { destruct Hk' as [->| ->]; [rewrite cc_even by lia; exact R|rewrite cc_odd by lia; rewrite Z.mul_opp_opp; exact R]. }
    rewrite E. apply IH; lia.
Qed.
Lemma zeta_root p : (p < N)%nat -> cgq (pw (zeta p) N) (-1).
Proof. intros H. unfold zeta. change N with (2 ^ 10)%nat. apply cc_root; [lia|]. change (2 ^ 10)%nat with 1024%nat. unfold N in H. lia. Qed.
(** ** evaluation is multiplicative *)
Lemma shift_sum0 z b i d : cgq (pw z (i + d)) (-1) ->
  cgq (sum (fun k => (if (i <=? k)%nat then b (k - i)%nat else - b (k + (i + d) - i)%nat) * pw z k) (i + d)) (pw z i * sum (fun k => b k * pw z k) (i + d)).
Proof.
  intros Hz. rewrite sum_split. replace (sum (fun k => b k * pw z k) (i + d)) with (sum (fun k => b k * pw z k) (d + i)) by (f_equal; lia). rewrite (sum_split _ d i). rewrite Z.mul_add_distr_l, Z.add_comm. apply cgq_add.
  - rewrite <- sum_scal. apply cgq_eq, sum_ext. intros k Hk. destruct (Nat.leb_spec i (i + k)); [|lia]. replace (i + k - i)%nat with k by lia. rewrite pw_add. ring.
  - rewrite <- sum_scal. apply sum_cg. intros k Hk. destruct (Nat.leb_spec i k); [lia|]. replace (k + (i + d) - i)%nat with (d + k)%nat by lia.
    transitivity (b (d + k)%nat * (pw z k * pw z (i + d))); [rewrite Hz; apply cgq_eq; ring|].
    apply cgq_eq. rewrite <- pw_add. transitivity (b (d + k)%nat * (pw z i * pw z (d + k))); [|ring]. rewrite <- pw_add. do 2 f_equal. lia.
Qed.
Lemma shift_sum b i p : (i <= N)%nat -> (p < N)%nat -> cgq (sum (fun k => (if (i <=? k)%nat then b (k - i)%nat else - b (k + N - i)%nat) * pw (zeta p) k) N) (pw (zeta p) i * ev b p).
Proof. intros Hi Hp. pose proof (zeta_root p Hp) as Z. unfold ev. revert Z. generalize (zeta p). revert Hi. clear. generalize N. intros n Hi z Z. assert (E : exists d, (n = i + d)%nat) by (exists (n - i)%nat; lia). destruct E as [d ->]. apply shift_sum0. exact Z. Qed.
Theorem ev_nega a b p : (p < N)%nat -> cgq (ev (nega a b) p) (ev a p * ev b p).
Proof.
  intros Hp. transitivity (sum (fun i => a i * (pw (zeta p) i * ev b p)) N).
  - transitivity (sum (fun i => a i * sum (fun k => (if (i <=? k)%nat then b (k - i)%nat else - b (k + N - i)%nat) * pw (zeta p) k) N) N).
    + apply cgq_eq. unfold ev at 1, nega. transitivity (sum (fun k => sum (fun i => a i * ((if (i <=? k)%nat then b (k - i)%nat else - b (k + N - i)%nat) * pw (zeta p) k)) N) N).
      * apply sum_ext. intros k _. rewrite Z.mul_comm, <- sum_scal. apply sum_ext. intros i _. ring.
      * rewrite sum_swap. apply sum_ext. intros i _. rewrite <- sum_scal. reflexivity.
    + apply sum_cg. intros i Hi. rewrite (shift_sum b i p ltac:(lia) Hp). reflexivity.
  - apply cgq_eq. generalize (ev b p). intros E. unfold ev. generalize (zeta p). generalize N. clear. intros n z. rewrite Z.mul_comm, <- sum_scal. apply sum_ext. intros i _. ring.
Qed.
