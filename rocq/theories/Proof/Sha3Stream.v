(** Streaming and squeezing of the SHA-3 object. *)
From Verif Require Import Base.Word Base.Arr Model.Sha3 Spec.Bytes Spec.Sha3Spec Proof.AesBase Proof.GcmBase Proof.Sha2Block Proof.Sha2Stream Proof.Sha3Block.

(** ** states in the two orders *)
Lemma tr_length s : length (tr s) = 25%nat.
Proof. unfold tr. rewrite map_length, seq_length. reflexivity. Qed.
Lemma nth_tr s q : (q < 25)%nat -> nth q (tr s) 0 = nth (ix (q mod 5) (q / 5)) s 0.
Proof. intros H. unfold tr. rewrite nth_map_seq by exact H. reflexivity. Qed.
Lemma tr_aset s q v : length s = 25%nat -> (q < 25)%nat -> tr (aset s (ix (q mod 5) (q / 5)) v) = aset (tr s) q v.
Proof.
  intros L H. assert (B : forall q, (q < 25)%nat -> (ix (q mod 5) (q / 5) < 25)%nat /\ (q mod 5 < 5)%nat /\ (q / 5 < 5)%nat /\ q = (5 * (q / 5) + q mod 5)%nat).
  { clear. intros q H. pose proof (Nat.div_mod q 5 ltac:(lia)). pose proof (Nat.mod_upper_bound q 5 ltac:(lia)). unfold ix. lia. }
  apply nth_ext_Z; [rewrite aset_length, !tr_length; reflexivity|]. rewrite tr_length. intros i Hi. rewrite nth_tr by exact Hi.
  destruct (B q H) as [B1 [B2 [B3 B4]]]. destruct (B i Hi) as [C1 [C2 [C3 C4]]]. unfold ix in *.
  destruct (Nat.eq_dec i q) as [->|N].
  - rewrite nth_aset_eq by lia. rewrite nth_aset_eq by (rewrite tr_length; lia). reflexivity.
  - rewrite nth_aset_neq by lia. rewrite nth_aset_neq by exact N. rewrite nth_tr by exact Hi. reflexivity.
Qed.

(** ** little-endian lanes *)
Lemma le_range l : bytes l -> 0 <= le l < 256 ^ Z.of_nat (length l).
Proof.
  induction 1 as [|x l Hx H IH]; [cbn; lia|]. unfold le in *. cbn [fold_right length]. rewrite Nat2Z.inj_succ, Z.pow_succ_r by lia. unfold is_byte in Hx. lia.
Qed.
Lemma le_zeros n : le (repeat 0 n) = 0.
Proof. induction n as [|n IH]; [reflexivity|]. unfold le in *. cbn [repeat fold_right]. rewrite IH. reflexivity. Qed.
Lemma le_set l : bytes l -> forall t b, (t < length l)%nat -> is_byte b -> nth t l 0 = 0 -> le (aset l t b) = Z.lxor (le l) (Z.shiftl b (8 * Z.of_nat t)).
Proof.
  induction 1 as [|x l Hx H IH]; intros [|t] b Ht Hb Hn; cbn [length] in Ht; try lia; cbn [nth] in Hn; unfold le in *; cbn [aset fold_right].
  - subst x. change (8 * Z.of_nat 0) with 0. rewrite Z.shiftl_0_r, Z.add_0_l. set (y := fold_right _ 0 l).
    rewrite <- (Z.add_0_l (256 * y)) at 2. rewrite <- (Z.add_0_r b) at 2. change (b + 0) with (b + 256 * 0). change 256 with (2 ^ 8).
    rewrite lxor_split by (try exact Hb; lia). rewrite Z.lxor_0_l, Z.lxor_0_r. reflexivity.
  - rewrite IH by (try assumption; lia). replace (8 * Z.of_nat (S t)) with (8 + 8 * Z.of_nat t) by lia. rewrite <- Z.shiftl_shiftl by lia.
    rewrite !Z.shiftl_mul_pow2 by lia. change 256 with (2 ^ 8). rewrite (Z.mul_comm b (2 ^ 8)), <- Z.mul_assoc.
    rewrite <- (Z.add_0_l (2 ^ 8 * (b * _))). rewrite lxor_split by (try exact Hx; lia). rewrite Z.lxor_0_r. reflexivity.
Qed.
Lemma firstn_skipn_aset {A} (l : list A) n k b : forall a, (a <= n)%nat -> (n < a + k)%nat -> firstn k (skipn a (aset l n b)) = aset (firstn k (skipn a l)) (n - a) b.
Proof.
  intros a. revert l n. induction a as [|a IH]; intros l n H1 H2.
  - rewrite !skipn_O, Nat.sub_0_r. cbn [Nat.add] in H2. clear H1. revert n k H2. induction l as [|x l IH]; intros [|n] [|k] H; try lia; cbn [aset firstn]; try reflexivity.
    f_equal. apply IH. lia.
  - destruct n as [|n]; [lia|]. destruct l as [|x l]; [destruct k; destruct (S n - S a)%nat; reflexivity|]. cbn [aset skipn Nat.sub]. apply IH; lia.
Qed.
Lemma firstn_skipn_aset_out {A} (l : list A) n k b : forall a, (n < a \/ a + k <= n)%nat -> firstn k (skipn a (aset l n b)) = firstn k (skipn a l).
Proof.
  intros a. revert l n. induction a as [|a IH]; intros l n H.
  - rewrite !skipn_O. destruct H as [H|H]; [lia|]. cbn [Nat.add] in H. revert n k H. induction l as [|x l IH]; intros [|n] [|k] H; try lia; cbn [aset firstn]; try reflexivity.
    f_equal. apply IH. lia.
  - destruct l as [|x l]; [reflexivity|]. destruct n as [|n]; [reflexivity|]. cbn [aset skipn]. apply IH. lia.
Qed.
Lemma Forall_firstn {A} (Q : A -> Prop) n l : Forall Q l -> Forall Q (firstn n l).
Proof. intros H. apply Forall_forall. intros x Hx. rewrite Forall_forall in H. apply H. rewrite <- (firstn_skipn n l). apply in_or_app. auto. Qed.
Lemma Forall_skipn {A} (Q : A -> Prop) n l : Forall Q l -> Forall Q (skipn n l).
Proof. intros H. apply Forall_forall. intros x Hx. rewrite Forall_forall in H. apply H. rewrite <- (firstn_skipn n l). apply in_or_app. auto. Qed.
Lemma lanes_length P : length (lanes_of P) = 25%nat.
Proof. unfold lanes_of. rewrite map_length, seq_length. reflexivity. Qed.
Lemma lanes_set P n b : bytes P -> length P = 200%nat -> (n < 200)%nat -> is_byte b -> nth n P 0 = 0 ->
  lanes_of (aset P n b) = aset (lanes_of P) (n / 8) (Z.lxor (nth (n / 8) (lanes_of P) 0) (Z.shiftl b (8 * Z.of_nat (n mod 8)))).
Proof.
  intros HP L Hn Hb H0. pose proof (Nat.div_mod n 8 ltac:(lia)) as DM. pose proof (Nat.mod_upper_bound n 8 ltac:(lia)) as MB.
  assert (Q : (n / 8 < 25)%nat) by (apply Nat.div_lt_upper_bound; lia).
  apply nth_ext_Z; [rewrite aset_length, !lanes_length; reflexivity|]. rewrite lanes_length. intros k Hk.
  assert (NL : forall P k, (k < 25)%nat -> nth k (lanes_of P) 0 = le (firstn 8 (skipn (8 * k) P))) by (intros P' k' Hk'; unfold lanes_of; rewrite nth_map_seq by exact Hk'; reflexivity).
  rewrite NL by exact Hk. destruct (Nat.eq_dec k (n / 8)) as [->|N].
  - rewrite nth_aset_eq by (rewrite lanes_length; exact Q). rewrite NL by exact Q. rewrite firstn_skipn_aset by lia.
    replace (n - 8 * (n / 8))%nat with (n mod 8)%nat by lia. apply le_set; [apply Forall_firstn, Forall_skipn, HP|rewrite firstn_length, skipn_length; lia|exact Hb|].
    rewrite nth_firstn by lia. rewrite <- (firstn_skipn (8 * (n / 8)) P), app_nth2 in H0 by (rewrite firstn_length; lia).
    rewrite firstn_length in H0. replace (n - Nat.min (8 * (n / 8)) (length P))%nat with (n mod 8)%nat in H0 by lia. exact H0.
  - rewrite nth_aset_neq by exact N. rewrite NL by exact Hk. rewrite firstn_skipn_aset_out; [reflexivity|]. lia.
Qed.
Lemma lanes_zero : lanes_of (repeat 0 200) = repeat 0 25.
Proof. vm_compute. reflexivity. Qed.
Lemma xorl_zeros A : xorl A (repeat 0 (length A)) = A.
Proof. induction A as [|x A IH]; [reflexivity|]. cbn [length repeat xorl]. rewrite Z.lxor_0_r, IH. reflexivity. Qed.
Lemma xorl_aset A : forall L k v, length A = length L -> (k < length L)%nat -> xorl A (aset L k (Z.lxor (nth k L 0) v)) = aset (xorl A L) k (Z.lxor (nth k (xorl A L) 0) v).
Proof.
  induction A as [|x A IH]; intros [|y L] [|k] v H1 H2; cbn [length] in *; try lia; cbn [aset xorl nth].
  - rewrite Z.lxor_assoc. reflexivity.
  - f_equal. apply IH; lia.
Qed.
Lemma aset_app_r {A} (p : list A) q x v : aset (p ++ x :: q) (length p) v = p ++ v :: q.
Proof. induction p as [|y p IH]; [reflexivity|]. cbn [app length aset]. f_equal. exact IH. Qed.
Lemma Forall_repeat {A} (Q : A -> Prop) x n : Q x -> Forall Q (repeat x n).
Proof. intros H. apply Forall_forall. intros y Hy. apply repeat_spec in Hy. subst. exact H. Qed.
Lemma keccak_length A : length A = 25%nat -> length (keccak_f A) = 25%nat.
Proof.
  intros H. change (keccak_f A) with (fold_left kround (seq 0 24) A). generalize (seq 0 24). intros ks. revert A H.
  induction ks as [|k ks IH]; intros A H; [exact H|]. rewrite fl_cons. apply IH. unfold kround, iota. rewrite aset_length. unfold chi, build_state. rewrite map_length, seq_length. reflexivity.
Qed.

Section Stream.
Variable r : nat.
Hypothesis Hr : (1 <= r <= 200)%nat.
Variable olen : Z.
Definition pad0 (p : list Z) : list Z := p ++ repeat 0 (200 - length p).
Definition absorbed_state (bs : list (list Z)) : list Z := fold_left (absorb_block r) bs (repeat 0 25).
Lemma absorbed_length bs : length (absorbed_state bs) = 25%nat.
Proof.
  unfold absorbed_state. induction bs as [|b bs IH] using rev_ind; [reflexivity|]. rewrite fold_left_app. cbn [fold_left]. revert IH. generalize (fold_left (absorb_block r) bs (repeat 0 25)). intros Y IH. unfold absorb_block. apply keccak_length. rewrite xorl_length, IH, lanes_length. reflexivity.
Qed.
Record inv3 (m : list Z) (t : st3) : Prop := mkinv3 {
  v_bytes : bytes m; v_rate : s_rate t = Z.of_nat r; v_len : s_len t = olen; v_length : s_length t = Z.of_nat (length m); v_ok : ok25 (s_s t);
  v_ex : exists bs p, m = concat bs ++ p /\ Forall (fun b => length b = r) bs /\ (length p < r)%nat /\ tr (s_s t) = xorl (absorbed_state bs) (lanes_of (pad0 p)) }.
Definition fits3 (n : Z) : Prop := n < 2 ^ 64.
Lemma cnt_p (m : list Z) bs p : m = concat bs ++ p -> Forall (fun b => length b = r) bs -> (length p < r)%nat -> Z.of_nat (length m) mod Z.of_nat r = Z.of_nat (length p).
Proof. intros -> H L. rewrite app_length, (concat_len r bs H). apply (mod_uniq _ (Z.of_nat (length bs))); lia. Qed.
Lemma shiftl_u64 b k : is_byte b -> (k < 8)%nat -> u64 (Z.shiftl b (8 * Z.of_nat k)).
Proof.
  unfold is_byte, u64. intros H Hk. rewrite Z.shiftl_mul_pow2 by lia. assert (0 < 2 ^ (8 * Z.of_nat k) <= 2 ^ 56) by (split; [apply pow2_pos; lia|apply pow2_le; lia]).
  split; [apply Z.mul_nonneg_nonneg; lia|]. change (2 ^ 64) with (256 * 2 ^ 56). apply Z.lt_le_trans with (256 * 2 ^ (8 * Z.of_nat k)); [apply Z.mul_lt_mono_pos_r; lia|apply Z.mul_le_mono_nonneg_l; lia].
Qed.
Lemma process_ok bd m t b : inv3 m t -> is_byte b -> fits3 (Z.of_nat (length m) + 1) -> exists t', process bd t b = Some t' /\ inv3 (m ++ [b]) t'.
Proof.
  intros I Hb F. destruct (v_ex _ _ I) as [bs [p [Em [Fb [Lp E]]]]]. unfold process. rewrite (v_rate _ _ I), (v_length _ _ I), (cnt_p m bs p Em Fb Lp).
  destruct (Z.eqb_spec (Z.of_nat r) 0) as [?|_]; [lia|]. set (n := length p) in *.
  pose proof (Nat.div_mod n 8 ltac:(lia)) as DM. pose proof (Nat.mod_upper_bound n 8 ltac:(lia)) as MB.
  assert (Q : (n / 8 < 25)%nat) by (apply Nat.div_lt_upper_bound; lia). assert (Q5 : (n / 8 / 5 < 5)%nat) by (apply Nat.div_lt_upper_bound; lia).
  assert (E8 : Z.of_nat n / 8 = Z.of_nat (n / 8)) by (change 8 with (Z.of_nat 8) at 1; symmetry; apply Nat2Z.inj_div).
  assert (EB : Z.of_nat n mod 8 = Z.of_nat (n mod 8)) by (change 8 with (Z.of_nat 8) at 1; symmetry; apply Nat2Z.inj_mod).
  assert (EI : Z.of_nat (n / 8) mod 5 = Z.of_nat ((n / 8) mod 5)) by (change 5 with (Z.of_nat 5) at 1; symmetry; apply Nat2Z.inj_mod).
  assert (EJ : Z.of_nat (n / 8) / 5 = Z.of_nat (n / 8 / 5)) by (change 5 with (Z.of_nat 5) at 1; symmetry; apply Nat2Z.inj_div).
  rewrite E8, EB, EI, EJ, !Nat2Z.id. destruct (Z.leb_spec 5 (Z.of_nat (n / 8 / 5))); [lia|].
  assert (U : uadd bd 64 (Z.of_nat (length m)) 1 = Some (Z.of_nat (length m) + 1)).
  { unfold uadd. unfold fits3 in F. destruct bd; [apply chku_ok; lia|]. unfold wrapu. rewrite Z.mod_small by lia. reflexivity. }
  rewrite U. cbn [bind]. eexists. split; [reflexivity|]. destruct (v_ok _ _ I) as [L25 F25].
  set (v := Z.lxor (sat (s_s t) ((n / 8) mod 5) (n / 8 / 5)) (Z.shiftl b (8 * Z.of_nat (n mod 8)))).
  set (s' := aset (s_s t) (ix ((n / 8) mod 5) (n / 8 / 5)) v).
  assert (OK : ok25 s').
  { split; [unfold s'; rewrite aset_length; exact L25|]. apply Forall_aset; [exact F25|]. apply xor_u64; [apply nth_u64; exact F25|apply shiftl_u64; assumption]. }
  assert (BM : bytes (m ++ [b])) by (apply Forall_app; split; [apply (v_bytes _ _ I)|repeat constructor; apply Hb]).
  assert (BP : bytes p) by (pose proof (v_bytes _ _ I) as BMm; rewrite Em in BMm; apply Forall_app in BMm; apply BMm).
  assert (P0 : pad0 (p ++ [b]) = aset (pad0 p) n b).
  { unfold pad0. replace (200 - length p)%nat with (S (200 - length (p ++ [b]))) by (rewrite app_length; cbn [length]; fold n; lia). cbn [repeat]. unfold n. rewrite aset_app_r, <- app_assoc. reflexivity. }
  assert (TE : tr s' = xorl (absorbed_state bs) (lanes_of (pad0 (p ++ [b])))).
  { unfold s'. rewrite tr_aset by assumption. rewrite P0. rewrite lanes_set.
    - rewrite xorl_aset by (rewrite ?absorbed_length, ?lanes_length; try reflexivity; exact Q). rewrite <- E. f_equal. unfold v, sat, at_. rewrite <- nth_tr by exact Q. reflexivity.
    - apply Forall_app. split; [exact BP|apply Forall_repeat; unfold is_byte; lia].
    - unfold pad0. rewrite app_length, repeat_length. fold n. lia.
    - lia.
    - exact Hb.
    - unfold pad0. rewrite app_nth2 by (unfold n; lia). replace (n - length p)%nat with 0%nat by (unfold n; lia). destruct (200 - length p)%nat; reflexivity. }
  assert (CASES : (S n < r \/ S n = r)%nat) by lia. destruct CASES as [G|G].
  - destruct (Z.eqb_spec (Z.of_nat n + 1) (Z.of_nat r)); [lia|]. constructor; cbn [s_rate s_len s_length s_s]; [exact BM|reflexivity|apply (v_len _ _ I)|rewrite app_length; cbn [length]; lia|exact OK|].
    exists bs, (p ++ [b]). split; [rewrite Em, app_assoc; reflexivity|]. split; [exact Fb|]. split; [rewrite app_length; cbn [length]; fold n; lia|exact TE].
  - destruct (Z.eqb_spec (Z.of_nat n + 1) (Z.of_nat r)); [|lia]. destruct (transform_ok s' OK) as [OK2 T2]. constructor; cbn [s_rate s_len s_length s_s]; [exact BM|reflexivity|apply (v_len _ _ I)|rewrite app_length; cbn [length]; lia|exact OK2|].
    exists (bs ++ [p ++ [b]]), []. split; [rewrite Em, concat_app; cbn [concat]; rewrite !app_nil_r, app_assoc; reflexivity|].
      assert (LPB : length (p ++ [b]) = r) by (rewrite app_length; cbn [length]; fold n; lia).
      split; [apply Forall_app; split; [exact Fb|repeat constructor; exact LPB]|]. split; [cbn; lia|].
      change (pad0 []) with (repeat 0 200). rewrite lanes_zero. rewrite T2, TE.
      replace (repeat 0 25) with (repeat 0 (length (absorbed_state (bs ++ [p ++ [b]])))) by (rewrite absorbed_length; reflexivity). rewrite xorl_zeros.
      unfold absorbed_state. rewrite fold_left_app. cbn [fold_left]. unfold absorb_block, pad0. rewrite LPB. reflexivity.
Qed.
Lemma process_all_ok bd : forall b m t, inv3 m t -> bytes b -> fits3 (Z.of_nat (length m) + Z.of_nat (length b)) -> exists t', process_all bd t b = Some t' /\ inv3 (m ++ b) t'.
Proof.
  induction b as [|x b IH]; intros m s I Hb F; [exists s; rewrite app_nil_r; auto|]. inversion Hb; subst. cbn [length] in F. cbn [process_all]. unfold fits3 in *.
  destruct (process_ok bd m s x I) as [s1 [E1 I1]]; [assumption|unfold fits3; lia|]. rewrite E1. cbn [bind].
  destruct (IH _ _ I1) as [s2 [E2 I2]]; [assumption|rewrite app_length; cbn [length]; lia|].
  exists s2. rewrite <- app_assoc in I2. auto.
Qed.
Lemma pad_loop_ok bd : forall k f m t, inv3 m t -> (length m mod r + k = r - 1)%nat -> (k <= f)%nat -> fits3 (Z.of_nat (length m) + Z.of_nat k) ->
  exists t', pad_loop bd f t = Some t' /\ inv3 (m ++ repeat 0 k) t'.
Proof.
  assert (CND : forall m t, inv3 m t -> (s_length t mod s_rate t =? s_rate t - 1) = (length m mod r =? r - 1)%nat).
  { intros m t I. rewrite (v_length _ _ I), (v_rate _ _ I). rewrite <- Nat2Z.inj_mod. destruct (Z.eqb_spec (Z.of_nat (length m mod r)) (Z.of_nat r - 1)); destruct (Nat.eqb_spec (length m mod r) (r - 1)); try reflexivity; lia. }
  induction k as [|k IH]; intros f m t I Hz Hf F.
  - exists t. cbn [repeat]. rewrite app_nil_r. split; [|exact I]. destruct f; [reflexivity|]. cbn [pad_loop]. rewrite (CND _ _ I). replace (length m mod r =? r - 1)%nat with true by (symmetry; apply Nat.eqb_eq; lia). reflexivity.
  - destruct f as [|f]; [lia|]. cbn [pad_loop]. rewrite (CND _ _ I). replace (length m mod r =? r - 1)%nat with false by (symmetry; apply Nat.eqb_neq; lia).
    unfold fits3 in *. destruct (process_ok bd m t 0 I) as [t1 [E1 I1]]; [unfold is_byte; lia|unfold fits3; lia|]. rewrite E1. cbn [bind].
    destruct (IH f (m ++ [0]) t1 I1) as [t2 [E2 I2]].
    + rewrite app_length. cbn [length]. pose proof (Nat.div_mod (length m) r ltac:(lia)) as DM.
      replace ((length m + 1) mod r)%nat with (length m mod r + 1)%nat; [lia|]. apply (Nat.mod_unique _ _ (length m / r)); lia.
    + lia.
    + rewrite app_length. cbn [length]. lia.
    + exists t2. rewrite <- app_assoc in I2. split; [exact E2|exact I2].
Qed.
Lemma finish_ok bd d m t : inv3 m t -> 0 <= d < 128 -> fits3 (Z.of_nat (length m) + Z.of_nat r) ->
  exists t', finish bd d (d + 128) t = Some t' /\ inv3 (pad_sha3 d r m) t' /\ (length (pad_sha3 d r m) mod r = 0)%nat.
Proof.
  intros I Hd F. unfold finish. rewrite (v_rate _ _ I). destruct (Z.eqb_spec (Z.of_nat r) 0) as [?|_]; [lia|]. rewrite (v_length _ _ I), <- Nat2Z.inj_mod. unfold pad_sha3.
  pose proof (Nat.div_mod (length m) r ltac:(lia)) as DM. pose proof (Nat.mod_upper_bound (length m) r ltac:(lia)) as MB. set (c := (length m mod r)%nat) in *. unfold fits3 in *.
  destruct (Z.eqb_spec (Z.of_nat r - Z.of_nat c) 1) as [Q|Q].
  - replace (r - c =? 1)%nat with true by (symmetry; apply Nat.eqb_eq; lia). destruct (process_ok bd m t (d + 128) I) as [t1 [E1 I1]]; [unfold is_byte; lia|unfold fits3; lia|].
    exists t1. split; [exact E1|]. split; [exact I1|]. rewrite app_length. cbn [length]. symmetry. apply (Nat.mod_unique _ _ (length m / r + 1)); lia.
  - replace (r - c =? 1)%nat with false by (symmetry; apply Nat.eqb_neq; lia).
    destruct (process_ok bd m t d I) as [t1 [E1 I1]]; [unfold is_byte; lia|unfold fits3; lia|]. rewrite E1. cbn [bind].
    destruct (pad_loop_ok bd (r - c - 2) (Z.to_nat (s_rate t1)) (m ++ [d]) t1 I1) as [t2 [E2 I2]].
    + rewrite app_length. cbn [length]. replace ((length m + 1) mod r)%nat with (c + 1)%nat; [lia|]. apply (Nat.mod_unique _ _ (length m / r)); lia.
    + rewrite (v_rate _ _ I1). lia.
    + unfold fits3. rewrite app_length. cbn [length]. lia.
    + rewrite E2. cbn [bind]. destruct (process_ok bd _ t2 128 I2) as [t3 [E3 I3]]; [unfold is_byte; lia|unfold fits3; rewrite !app_length, repeat_length; cbn [length]; lia|].
      rewrite <- !app_assoc in I3. cbn [app] in I3. exists t3. split; [exact E3|]. split; [exact I3|].
      rewrite app_length. cbn [length]. rewrite app_length, repeat_length. cbn [length]. symmetry. apply (Nat.mod_unique _ _ (length m / r + 1)); lia.
Qed.
(** after whole blocks the state is the sponge state *)
Lemma aligned_state m t : inv3 m t -> (length m mod r = 0)%nat -> tr (s_s t) = fold_left (absorb_block r) (cut3 (length m) r m) (repeat 0 25).
Proof.
  intros I H. destruct (v_ex _ _ I) as [bs [p [Em [Fb [Lp E]]]]]. pose proof (cnt_p m bs p Em Fb Lp) as C. rewrite <- Nat2Z.inj_mod, H in C.
  destruct p as [|? ?]; [|cbn in C; lia]. rewrite app_nil_r in Em. change (pad0 []) with (repeat 0 200) in E. rewrite lanes_zero in E.
  rewrite E. replace (repeat 0 25) with (repeat 0 (length (absorbed_state bs))) at 1 by (rewrite absorbed_length; reflexivity). rewrite xorl_zeros. unfold absorbed_state. f_equal.
  change (cut3 (length m) r m) with (Sha2Spec.cut (length m) r m). rewrite Em at 2. symmetry. apply cut_concat; [lia|exact Fb|rewrite Em; lia].
Qed.

(** ** squeezing *)
Lemma byte_ok3 s p : (p < 200)%nat -> Z.land (Z.shiftr (sat s ((p / 8) mod 5) (p / 8 / 5)) (8 * Z.of_nat (p mod 8))) 255 = state_byte (tr s) p.
Proof.
  intros H. unfold state_byte. rewrite nth_tr by (apply Nat.div_lt_upper_bound; lia). unfold sat, at_. apply shr_byte. lia.
Qed.
Lemma emit_ok s len blen q : (len <= blen)%nat -> forall k n p m, m = (q * r + p)%nat -> (p < r)%nat -> (m < len)%nat -> n = (200 - p)%nat -> S k = Nat.min (r - p) (len - m) ->
  emit n s p m len r blen = Some (map (state_byte (tr s)) (seq p (S k)), (m + S k)%nat).
Proof.
  intros HB. induction k as [|k IH]; intros n p m Hm Hp Hl Hn Hk.
  - destruct n as [|n]; [lia|]. cbn [emit]. replace (blen <=? m)%nat with false by (symmetry; apply Nat.leb_gt; lia).
    assert (ST : ((len <=? S m) || (S m mod r =? 0))%nat = true).
    { apply orb_true_iff. destruct (Nat.eq_dec (len - m) 1); [left; apply Nat.leb_le; lia|right]. apply Nat.eqb_eq. symmetry. apply (Nat.mod_unique _ _ (q + 1)); lia. }
    rewrite ST. rewrite byte_ok3 by lia. cbn [seq map]. rewrite Nat.add_1_r. reflexivity.
  - destruct n as [|n]; [lia|]. cbn [emit]. replace (blen <=? m)%nat with false by (symmetry; apply Nat.leb_gt; lia).
    assert (ST : ((len <=? S m) || (S m mod r =? 0))%nat = false).
    { apply orb_false_iff. split; [apply Nat.leb_gt; lia|]. apply Nat.eqb_neq. replace (S m mod r)%nat with (S p); [lia|]. apply (Nat.mod_unique _ _ q); lia. }
    rewrite ST. rewrite byte_ok3 by lia. rewrite (IH n (S p) (S m)) by lia. cbn [bind fst snd]. replace (S m + S k)%nat with (m + S (S k))%nat by lia. reflexivity.
Qed.
Lemma squeeze_ok len blen : (len <= blen)%nat -> forall f s q, ok25 s -> (q * r < len)%nat -> (len - q * r < f)%nat ->
  exists s', squeeze f s (q * r) len r blen = Some (squeeze_out f r (len - q * r) (tr s), s') /\ ok25 s'.
Proof.
  intros HB. induction f as [|f IH]; intros s q OK Hq Hf; [lia|]. cbn [squeeze squeeze_out]. set (k := Nat.min r (len - q * r)).
  assert (KE : k = S (k - 1)) by (unfold k; lia).
  rewrite (emit_ok s len blen q HB (k - 1) 200 0 (q * r)); [|lia|lia|lia|lia|rewrite <- KE; unfold k; lia]. cbn [bind fst snd]. rewrite <- KE.
  destruct (Nat.leb_spec len (q * r + k)) as [G|G].
  - replace (len - q * r <=? r)%nat with true by (symmetry; apply Nat.leb_le; unfold k in *; lia). exists s. rewrite app_nil_r. auto.
  - replace (len - q * r <=? r)%nat with false by (symmetry; apply Nat.leb_gt; unfold k in *; lia).
    assert (KR : k = r) by (unfold k in *; lia). rewrite KR. destruct (transform_ok s OK) as [OK2 T2]. replace (q * r + r)%nat with ((q + 1) * r)%nat by lia.
    destruct (IH (transform s) (q + 1)%nat OK2) as [s' [E O]]; [rewrite KR in G; lia|lia|]. rewrite E. cbn [bind fst snd]. exists s'. rewrite T2.
    replace (len - (q + 1) * r)%nat with (len - q * r - r)%nat by lia. auto.
Qed.
Lemma sponge_ok bd d m t len blen : inv3 m t -> 0 <= d < 128 -> fits3 (Z.of_nat (length m) + Z.of_nat r) -> (0 < len <= blen)%nat ->
  exists t' s', finish bd d (d + 128) t = Some t' /\ s_rate t' = Z.of_nat r /\ s_len t' = olen /\ squeeze (S len) (s_s t') 0 len (Z.to_nat (s_rate t')) blen = Some (SPONGE d r m len, s').
Proof.
  intros I Hd F Hl. destruct (finish_ok bd d m t I Hd F) as [t' [E [I2 A2]]]. exists t'. rewrite (v_rate _ _ I2), Nat2Z.id.
  destruct (squeeze_ok len blen ltac:(lia) (S len) (s_s t') 0 (v_ok _ _ I2)) as [s' [E2 _]]; [lia|lia|]. cbn [Nat.mul] in E2. rewrite Nat.sub_0_r in E2.
  exists s'. split; [exact E|]. split; [reflexivity|]. split; [apply (v_len _ _ I2)|]. rewrite E2. unfold SPONGE. rewrite (aligned_state _ _ I2 A2). reflexivity.
Qed.
End Stream.
Lemma init_ok bd o : (o < 100)%nat -> exists t, init bd (Z.of_nat o) = Some t /\ inv3 (200 - 2 * o) (Z.of_nat o) [] t.
Proof.
  intros Ho. unfold init. assert (E1 : (match bd with Debug => chku 64 (2 * Z.of_nat o) | Release => Some (wrapu 64 (2 * Z.of_nat o)) end) = Some (2 * Z.of_nat o)).
  { destruct bd; [apply chku_ok; lia|unfold wrapu; rewrite Z.mod_small by lia; reflexivity]. }
  assert (E2 : (match bd with Debug => chku 64 (200 - 2 * Z.of_nat o) | Release => Some (wrapu 64 (200 - 2 * Z.of_nat o)) end) = Some (200 - 2 * Z.of_nat o)).
  { destruct bd; [apply chku_ok; lia|unfold wrapu; rewrite Z.mod_small by lia; reflexivity]. }
  rewrite E1. cbn [bind]. rewrite E2. cbn [bind]. eexists. split; [reflexivity|]. constructor; cbn [s_rate s_len s_length s_s].
  - constructor.
  - lia.
  - reflexivity.
  - reflexivity.
  - split; [reflexivity|]. apply Forall_repeat. unfold u64. lia.
  - exists [], []. split; [reflexivity|]. split; [constructor|]. split; [cbn [length]; lia|]. vm_compute. reflexivity.
Qed.
