(** The table-driven rounds are the FIPS-197 rounds; the key schedule; block encryption and decryption. *)
From Verif Require Import Base.Word Base.Arr Model.AesTables Model.Aes Spec.AesSpec Proof.AesBase.

Ltac explode s H := let H' := fresh in
  repeat (destruct s as [|? s]; [discriminate H|]); destruct s as [|? s]; [|discriminate H]; clear H.
Ltac inv_forall := repeat match goal with H : Forall _ (_ :: _) |- _ => inversion H; subst; clear H end; repeat match goal with H : Forall _ [] |- _ => clear H end.
Definition st_ok (s : list Z) : Prop := length s = 16%nat /\ Forall byte_ok s.
Definition words (s : list Z) : Z * Z * Z * Z :=
  (pk (at_ s 0) (at_ s 1) (at_ s 2) (at_ s 3), pk (at_ s 4) (at_ s 5) (at_ s 6) (at_ s 7),
   pk (at_ s 8) (at_ s 9) (at_ s 10) (at_ s 11), pk (at_ s 12) (at_ s 13) (at_ s 14) (at_ s 15)).
(** the four schedule words at position k hold the round key rk *)
Definition rk_at (fkey : list Z) (k : nat) (rk : list Z) : Prop :=
  (at_ fkey k, at_ fkey (k + 1), at_ fkey (k + 2), at_ fkey (k + 3)) = words rk.

#[export] Hint Resolve sbox_byte inv_sbox_byte byte_xor : bytes.
Lemma gmul_byte2 x : byte_ok x -> byte_ok (gmul 2 x). Proof. apply gmul_byte. cbn. tauto. Qed.
Lemma gmul_byte3 x : byte_ok x -> byte_ok (gmul 3 x). Proof. apply gmul_byte. cbn. tauto. Qed.
Lemma gmul_byte9 x : byte_ok x -> byte_ok (gmul 9 x). Proof. apply gmul_byte. cbn. tauto. Qed.
Lemma gmul_byte11 x : byte_ok x -> byte_ok (gmul 11 x). Proof. apply gmul_byte. cbn. tauto. Qed.
Lemma gmul_byte13 x : byte_ok x -> byte_ok (gmul 13 x). Proof. apply gmul_byte. cbn. tauto. Qed.
Lemma gmul_byte14 x : byte_ok x -> byte_ok (gmul 14 x). Proof. apply gmul_byte. cbn. tauto. Qed.
#[export] Hint Resolve gmul_byte2 gmul_byte3 gmul_byte9 gmul_byte11 gmul_byte13 gmul_byte14 : bytes.
Lemma byte_0 : byte_ok 0. Proof. unfold byte_ok. lia. Qed.
#[export] Hint Resolve byte_0 : bytes.

(** one column *)
Lemma tcol_F k0 k1 k2 k3 a0 a1 a2 a3 b0' b1' b2' b3' c0 c1 c2 c3 d0 d1 d2 d3 :
  Forall byte_ok [k0; k1; k2; k3; a0; a1; a2; a3; b0'; b1'; b2'; b3'; c0; c1; c2; c3; d0; d1; d2; d3] ->
  tcol FTABLE (pk k0 k1 k2 k3) (pk a0 a1 a2 a3) (pk b0' b1' b2' b3') (pk c0 c1 c2 c3) (pk d0 d1 d2 d3) =
  let s0 := sbox a0 in let s1 := sbox b1' in let s2 := sbox c2 in let s3 := sbox d3 in
  pk (Z.lxor (Z.lxor (gmul 2 s0) (Z.lxor (gmul 3 s1) (Z.lxor (gmul 1 s2) (gmul 1 s3)))) k0)
     (Z.lxor (Z.lxor (gmul 2 s1) (Z.lxor (gmul 3 s2) (Z.lxor (gmul 1 s3) (gmul 1 s0)))) k1)
     (Z.lxor (Z.lxor (gmul 2 s2) (Z.lxor (gmul 3 s3) (Z.lxor (gmul 1 s0) (gmul 1 s1)))) k2)
     (Z.lxor (Z.lxor (gmul 2 s3) (Z.lxor (gmul 3 s0) (Z.lxor (gmul 1 s1) (gmul 1 s2)))) k3).
Proof.
  intros H. inv_forall. cbv zeta. unfold tcol. rewrite b0_pk, b1_pk, b2_pk, b3_pk by assumption. rewrite !tab_F by assumption.
  rewrite rotl8_pk, rotl16_pk, rotl24_pk by auto with bytes. rewrite !gmul_1 by auto with bytes.
  rewrite !lxor_pk by auto 8 with bytes.
  f_equal; apply Z.bits_inj'; intros i _; rewrite !Z.lxor_spec;
   repeat match goal with |- context [Z.testbit ?x i] => destruct (Z.testbit x i) end; reflexivity.
Qed.
Lemma tcol_FB k0 k1 k2 k3 a0 a1 a2 a3 b0' b1' b2' b3' c0 c1 c2 c3 d0 d1 d2 d3 :
  Forall byte_ok [k0; k1; k2; k3; a0; a1; a2; a3; b0'; b1'; b2'; b3'; c0; c1; c2; c3; d0; d1; d2; d3] ->
  tcol FBSUB (pk k0 k1 k2 k3) (pk a0 a1 a2 a3) (pk b0' b1' b2' b3') (pk c0 c1 c2 c3) (pk d0 d1 d2 d3) =
  pk (Z.lxor (sbox a0) k0) (Z.lxor (sbox b1') k1) (Z.lxor (sbox c2) k2) (Z.lxor (sbox d3) k3).
Proof.
  intros H. inv_forall. unfold tcol. rewrite b0_pk, b1_pk, b2_pk, b3_pk by assumption. rewrite !tab_FB by assumption.
  assert (P : forall x, x = pk x 0 0 0) by (intros; unfold pk; lia).
  rewrite (P (sbox a0)), (P (sbox b1')), (P (sbox c2)), (P (sbox d3)).
  rewrite rotl8_pk, rotl16_pk, rotl24_pk by auto with bytes. rewrite !lxor_pk by auto 8 with bytes. rewrite <- !P.
  rewrite !Z.lxor_0_r. f_equal; apply Z.lxor_comm.
Qed.
Lemma tcol_R k0 k1 k2 k3 a0 a1 a2 a3 b0' b1' b2' b3' c0 c1 c2 c3 d0 d1 d2 d3 :
  Forall byte_ok [k0; k1; k2; k3; a0; a1; a2; a3; b0'; b1'; b2'; b3'; c0; c1; c2; c3; d0; d1; d2; d3] ->
  tcol RTABLE (pk k0 k1 k2 k3) (pk a0 a1 a2 a3) (pk b0' b1' b2' b3') (pk c0 c1 c2 c3) (pk d0 d1 d2 d3) =
  let s0 := inv_sbox a0 in let s1 := inv_sbox b1' in let s2 := inv_sbox c2 in let s3 := inv_sbox d3 in
  pk (Z.lxor (Z.lxor (gmul 14 s0) (Z.lxor (gmul 11 s1) (Z.lxor (gmul 13 s2) (gmul 9 s3)))) k0)
     (Z.lxor (Z.lxor (gmul 14 s1) (Z.lxor (gmul 11 s2) (Z.lxor (gmul 13 s3) (gmul 9 s0)))) k1)
     (Z.lxor (Z.lxor (gmul 14 s2) (Z.lxor (gmul 11 s3) (Z.lxor (gmul 13 s0) (gmul 9 s1)))) k2)
     (Z.lxor (Z.lxor (gmul 14 s3) (Z.lxor (gmul 11 s0) (Z.lxor (gmul 13 s1) (gmul 9 s2)))) k3).
Proof.
  intros H. inv_forall. cbv zeta. unfold tcol. rewrite b0_pk, b1_pk, b2_pk, b3_pk by assumption. rewrite !tab_R by assumption.
  rewrite rotl8_pk, rotl16_pk, rotl24_pk by auto with bytes.
  rewrite !lxor_pk by auto 8 with bytes.
  f_equal; apply Z.bits_inj'; intros i _; rewrite !Z.lxor_spec;
   repeat match goal with |- context [Z.testbit ?x i] => destruct (Z.testbit x i) end; reflexivity.
Qed.
Lemma tcol_RB k0 k1 k2 k3 a0 a1 a2 a3 b0' b1' b2' b3' c0 c1 c2 c3 d0 d1 d2 d3 :
  Forall byte_ok [k0; k1; k2; k3; a0; a1; a2; a3; b0'; b1'; b2'; b3'; c0; c1; c2; c3; d0; d1; d2; d3] ->
  tcol RBSUB (pk k0 k1 k2 k3) (pk a0 a1 a2 a3) (pk b0' b1' b2' b3') (pk c0 c1 c2 c3) (pk d0 d1 d2 d3) =
  pk (Z.lxor (inv_sbox a0) k0) (Z.lxor (inv_sbox b1') k1) (Z.lxor (inv_sbox c2) k2) (Z.lxor (inv_sbox d3) k3).
Proof.
  intros H. inv_forall. unfold tcol. rewrite b0_pk, b1_pk, b2_pk, b3_pk by assumption. rewrite !tab_RB by assumption.
  assert (P : forall x, x = pk x 0 0 0) by (intros; unfold pk; lia).
  rewrite (P (inv_sbox a0)), (P (inv_sbox b1')), (P (inv_sbox c2)), (P (inv_sbox d3)).
  rewrite rotl8_pk, rotl16_pk, rotl24_pk by auto with bytes. rewrite !lxor_pk by auto 8 with bytes. rewrite <- !P.
  rewrite !Z.lxor_0_r. f_equal; apply Z.lxor_comm.
Qed.

Ltac col L := apply L; repeat (apply Forall_cons; [assumption|]); apply Forall_nil.
Ltac start s k := let L1 := fresh in let L2 := fresh in let F1 := fresh in let F2 := fresh in
  intros [L1 F1] [L2 F2]; explode s L1; explode k L2; inv_forall.
Lemma words_pack x0 x1 x2 x3 x4 x5 x6 x7 x8 x9 x10 x11 x12 x13 x14 x15 :
  words [x0; x1; x2; x3; x4; x5; x6; x7; x8; x9; x10; x11; x12; x13; x14; x15] = (pk x0 x1 x2 x3, pk x4 x5 x6 x7, pk x8 x9 x10 x11, pk x12 x13 x14 x15).
Proof. reflexivity. Qed.
Ltac norm_state := cbv [words add_round_key mix_columns inv_mix_columns mix_with shift_rows inv_shift_rows sub_bytes inv_sub_bytes map seq at_ nth xorl
   Nat.modulo Nat.div Nat.divmod Nat.add Nat.sub Nat.mul fst snd].
Lemma enc_round_F fkey k s rk : st_ok s -> st_ok rk -> rk_at fkey k rk ->
  enc_round FTABLE fkey k (words s) = words (add_round_key (mix_columns (shift_rows (sub_bytes s))) rk).
Proof.
  start s rk. intros HR. unfold rk_at in HR. rewrite words_pack in *. injection HR as E0 E1 E2 E3. unfold enc_round. rewrite E0, E1, E2, E3.
  rewrite !tcol_F by (repeat (apply Forall_cons; [assumption|]); apply Forall_nil). norm_state. reflexivity.
Qed.
Lemma enc_round_FB fkey k s rk : st_ok s -> st_ok rk -> rk_at fkey k rk ->
  enc_round FBSUB fkey k (words s) = words (add_round_key (shift_rows (sub_bytes s)) rk).
Proof.
  start s rk. intros HR. unfold rk_at in HR. rewrite words_pack in *. injection HR as E0 E1 E2 E3. unfold enc_round. rewrite E0, E1, E2, E3.
  rewrite !tcol_FB by (repeat (apply Forall_cons; [assumption|]); apply Forall_nil). norm_state. reflexivity.
Qed.
Lemma dec_round_R rkey k s rk : st_ok s -> st_ok rk -> rk_at rkey k rk ->
  dec_round RTABLE rkey k (words s) = words (add_round_key (inv_mix_columns (inv_sub_bytes (inv_shift_rows s))) rk).
Proof.
  start s rk. intros HR. unfold rk_at in HR. rewrite words_pack in *. injection HR as E0 E1 E2 E3. unfold dec_round. rewrite E0, E1, E2, E3.
  rewrite !tcol_R by (repeat (apply Forall_cons; [assumption|]); apply Forall_nil). norm_state. reflexivity.
Qed.
Lemma dec_round_RB rkey k s rk : st_ok s -> st_ok rk -> rk_at rkey k rk ->
  dec_round RBSUB rkey k (words s) = words (add_round_key (inv_sub_bytes (inv_shift_rows s)) rk).
Proof.
  start s rk. intros HR. unfold rk_at in HR. rewrite words_pack in *. injection HR as E0 E1 E2 E3. unfold dec_round. rewrite E0, E1, E2, E3.
  rewrite !tcol_RB by (repeat (apply Forall_cons; [assumption|]); apply Forall_nil). norm_state. reflexivity.
Qed.

(** ** the transformations preserve states, and invert each other *)
Lemma at_byte s i : Forall byte_ok s -> byte_ok (at_ s i).
Proof. intros H. unfold at_. apply Forall_nth_ok; [exact H|apply byte_0]. Qed.
Lemma ark_ok s k : st_ok s -> st_ok k -> st_ok (add_round_key s k).
Proof. intros [L1 F1] [L2 F2]. split; [unfold add_round_key; rewrite xorl_length, L1, L2; reflexivity|apply xorl_bytes; assumption]. Qed.
Lemma sub_ok s : st_ok s -> st_ok (sub_bytes s).
Proof. intros [L F]. split; [unfold sub_bytes; rewrite map_length; exact L|]. apply Forall_map. eapply Forall_impl; [|exact F]. intros; apply sbox_byte; assumption. Qed.
Lemma inv_sub_ok s : st_ok s -> st_ok (inv_sub_bytes s).
Proof. intros [L F]. split; [unfold inv_sub_bytes; rewrite map_length; exact L|]. apply Forall_map. eapply Forall_impl; [|exact F]. intros; apply inv_sbox_byte; assumption. Qed.
Lemma shift_ok s : st_ok s -> st_ok (shift_rows s).
Proof. intros [L F]. split; [reflexivity|]. apply Forall_map. apply Forall_forall. intros i _. apply at_byte. exact F. Qed.
Lemma inv_shift_ok s : st_ok s -> st_ok (inv_shift_rows s).
Proof. intros [L F]. split; [reflexivity|]. apply Forall_map. apply Forall_forall. intros i _. apply at_byte. exact F. Qed.
Lemma mix_with_ok k0 k1 k2 k3 s : In k0 coefs -> In k1 coefs -> In k2 coefs -> In k3 coefs -> st_ok s -> st_ok (mix_with k0 k1 k2 k3 s).
Proof.
  intros H0 H1 H2 H3 [L F]. split; [reflexivity|]. apply Forall_map. apply Forall_forall. intros i _. cbv zeta.
  apply byte_xor; [|apply byte_xor; [|apply byte_xor]]; apply gmul_byte; try assumption; apply at_byte; exact F.
Qed.
Lemma mix_ok s : st_ok s -> st_ok (mix_columns s).
Proof. apply mix_with_ok; cbn; tauto. Qed.
Lemma inv_mix_ok s : st_ok s -> st_ok (inv_mix_columns s).
Proof. apply mix_with_ok; cbn; tauto. Qed.
Lemma ark_ark s k : st_ok s -> st_ok k -> add_round_key (add_round_key s k) k = s.
Proof. intros [L1 _] [L2 _]. apply xorl_invol. lia. Qed.
Lemma inv_shift_shift s : st_ok s -> inv_shift_rows (shift_rows s) = s.
Proof. intros [L F]. explode s L. norm_state. reflexivity. Qed.
Lemma shift_inv_shift s : st_ok s -> shift_rows (inv_shift_rows s) = s.
Proof. intros [L F]. explode s L. norm_state. reflexivity. Qed.
Lemma inv_sub_sub s : st_ok s -> inv_sub_bytes (sub_bytes s) = s.
Proof. intros [L F]. unfold inv_sub_bytes, sub_bytes. rewrite map_map. clear L. induction F; cbn [map]; [reflexivity|]. rewrite inv_sbox_sbox by assumption. f_equal. assumption. Qed.
Lemma sub_inv_sub s : st_ok s -> sub_bytes (inv_sub_bytes s) = s.
Proof. intros [L F]. unfold inv_sub_bytes, sub_bytes. rewrite map_map. clear L. induction F; cbn [map]; [reflexivity|]. rewrite sbox_inv_sbox by assumption. f_equal. assumption. Qed.
Lemma mix_with_xor k0 k1 k2 k3 s t : st_ok s -> st_ok t -> mix_with k0 k1 k2 k3 (add_round_key s t) = add_round_key (mix_with k0 k1 k2 k3 s) (mix_with k0 k1 k2 k3 t).
Proof.
  intros [L1 F1] [L2 F2]. apply nth_ext_Z; [reflexivity|]. intros i Hi. change (length (mix_with k0 k1 k2 k3 (add_round_key s t))) with 16%nat in Hi.
  unfold add_round_key at 2. rewrite nth_xorl by (cbn [mix_with]; unfold mix_with; rewrite map_length, seq_length; exact Hi).
  assert (E : forall (f : nat -> Z), nth i (map f (seq 0 16)) 0 = f i).
  { intros f. do 16 (destruct i as [|i]; [reflexivity|]). lia. }
  unfold mix_with. rewrite !E. cbv zeta.
  assert (X : forall j, at_ (add_round_key s t) ((i mod 4 + j) mod 4 + 4 * (i / 4)) = Z.lxor (at_ s ((i mod 4 + j) mod 4 + 4 * (i / 4))) (at_ t ((i mod 4 + j) mod 4 + 4 * (i / 4)))).
  { intros j. apply nth_xorl.
    - rewrite L1. clear - Hi. assert (i / 4 < 4)%nat by (apply Nat.div_lt_upper_bound; lia). pose proof (Nat.mod_upper_bound (i mod 4 + j) 4 ltac:(lia)). lia.
    - rewrite L2. clear - Hi. assert (i / 4 < 4)%nat by (apply Nat.div_lt_upper_bound; lia). pose proof (Nat.mod_upper_bound (i mod 4 + j) 4 ltac:(lia)). lia. }
  rewrite !X. rewrite !gmul_xor by (apply at_byte; assumption).
  apply Z.bits_inj'; intros b _; rewrite !Z.lxor_spec;
   repeat match goal with |- context [Z.testbit ?x b] => destruct (Z.testbit x b) end; reflexivity.
Qed.
(** InvMixColumns (MixColumns s) = s: linear, so it is enough to look at each byte of a column alone *)
Definition unit_mix (k0 k1 k2 k3 l0 l1 l2 l3 x : Z) : list Z :=
  [Z.lxor (gmul k0 (gmul l0 x)) (Z.lxor (gmul k1 (gmul l3 x)) (Z.lxor (gmul k2 (gmul l2 x)) (gmul k3 (gmul l1 x))));
   Z.lxor (gmul k0 (gmul l1 x)) (Z.lxor (gmul k1 (gmul l0 x)) (Z.lxor (gmul k2 (gmul l3 x)) (gmul k3 (gmul l2 x))));
   Z.lxor (gmul k0 (gmul l2 x)) (Z.lxor (gmul k1 (gmul l1 x)) (Z.lxor (gmul k2 (gmul l0 x)) (gmul k3 (gmul l3 x))));
   Z.lxor (gmul k0 (gmul l3 x)) (Z.lxor (gmul k1 (gmul l2 x)) (Z.lxor (gmul k2 (gmul l1 x)) (gmul k3 (gmul l0 x))))].
Lemma unit_mix_ok x : byte_ok x -> unit_mix 14 11 13 9 2 3 1 1 x = [x; 0; 0; 0].
Proof.
  intros H. assert (A : (fun x => match unit_mix 14 11 13 9 2 3 1 1 x with [a; b; c; d] => (a =? x) && (b =? 0) && (c =? 0) && (d =? 0) | _ => false end) x = true).
  { apply (byte_sweep (fun x => match unit_mix 14 11 13 9 2 3 1 1 x with [a; b; c; d] => (a =? x) && (b =? 0) && (c =? 0) && (d =? 0) | _ => false end)); [vm_compute; reflexivity|exact H]. }
  cbv beta in A. unfold unit_mix in *. rewrite !andb_true_iff, !Z.eqb_eq in A. destruct A as [[[-> ->] ->] ->]. reflexivity.
Qed.
Lemma unit_mix_ok' x : byte_ok x -> unit_mix 2 3 1 1 14 11 13 9 x = [x; 0; 0; 0].
Proof.
  intros H. assert (A : (fun x => match unit_mix 2 3 1 1 14 11 13 9 x with [a; b; c; d] => (a =? x) && (b =? 0) && (c =? 0) && (d =? 0) | _ => false end) x = true).
  { apply (byte_sweep (fun x => match unit_mix 2 3 1 1 14 11 13 9 x with [a; b; c; d] => (a =? x) && (b =? 0) && (c =? 0) && (d =? 0) | _ => false end)); [vm_compute; reflexivity|exact H]. }
  cbv beta in A. unfold unit_mix in *. rewrite !andb_true_iff, !Z.eqb_eq in A. destruct A as [[[-> ->] ->] ->]. reflexivity.
Qed.
Lemma lxor_T2 a b c d a' b' c' d' :
  Z.lxor (Z.lxor a (Z.lxor b (Z.lxor c d))) (Z.lxor a' (Z.lxor b' (Z.lxor c' d'))) = Z.lxor (Z.lxor a a') (Z.lxor (Z.lxor b b') (Z.lxor (Z.lxor c c') (Z.lxor d d'))).
Proof. rewrite lxor4. f_equal. rewrite lxor4. f_equal. apply lxor4. Qed.
Lemma lxor_T4 a0 b0 c0 d0 a1 b1 c1 d1 a2 b2 c2 d2 a3 b3 c3 d3 :
  (Z.lxor (Z.lxor a0 (Z.lxor b0 (Z.lxor c0 d0))) (Z.lxor (Z.lxor a1 (Z.lxor b1 (Z.lxor c1 d1))) (Z.lxor (Z.lxor a2 (Z.lxor b2 (Z.lxor c2 d2))) (Z.lxor a3 (Z.lxor b3 (Z.lxor c3 d3)))))) = (Z.lxor (Z.lxor a0 (Z.lxor a1 (Z.lxor a2 a3))) (Z.lxor (Z.lxor b0 (Z.lxor b1 (Z.lxor b2 b3))) (Z.lxor (Z.lxor c0 (Z.lxor c1 (Z.lxor c2 c3))) (Z.lxor d0 (Z.lxor d1 (Z.lxor d2 d3)))))).
Proof. rewrite (lxor_T2 a2 b2 c2 d2 a3 b3 c3 d3), (lxor_T2 a1 b1 c1 d1), lxor_T2. reflexivity. Qed.
Definition row (k0 k1 k2 k3 a b c d : Z) : Z := Z.lxor (gmul k0 a) (Z.lxor (gmul k1 b) (Z.lxor (gmul k2 c) (gmul k3 d))).
Lemma row_row k0 k1 k2 k3 l0 l1 l2 l3 a b c d : In l0 coefs -> In l1 coefs -> In l2 coefs -> In l3 coefs -> byte_ok a -> byte_ok b -> byte_ok c -> byte_ok d ->
  row k0 k1 k2 k3 (row l0 l1 l2 l3 a b c d) (row l0 l1 l2 l3 b c d a) (row l0 l1 l2 l3 c d a b) (row l0 l1 l2 l3 d a b c) =
  Z.lxor (at_ (unit_mix k0 k1 k2 k3 l0 l1 l2 l3 a) 0) (Z.lxor (at_ (unit_mix k0 k1 k2 k3 l0 l1 l2 l3 b) 1)
   (Z.lxor (at_ (unit_mix k0 k1 k2 k3 l0 l1 l2 l3 c) 2) (at_ (unit_mix k0 k1 k2 k3 l0 l1 l2 l3 d) 3))).
Proof.
  intros. unfold row. assert (G : forall l x, In l coefs -> byte_ok x -> byte_ok (gmul l x)) by (intros; apply gmul_byte; assumption).
  assert (X : forall x y, byte_ok x -> byte_ok y -> byte_ok (Z.lxor x y)) by (intros; apply byte_xor; assumption).
  rewrite !gmul_xor by auto 7. unfold unit_mix, at_. cbn [nth].
  (* bring the variables of each inner row into the order a b c d *)
  assert (R1 : forall x y z w : Z, Z.lxor x (Z.lxor y (Z.lxor z w)) = Z.lxor w (Z.lxor x (Z.lxor y z))).
  { intros. rewrite (Z.lxor_comm w). rewrite !Z.lxor_assoc. reflexivity. }
  rewrite (R1 (gmul k1 _) (gmul k1 _) (gmul k1 _) (gmul k1 _)).
  rewrite (R1 (gmul k2 (gmul l0 c))). rewrite (R1 (gmul k2 (gmul l3 b))).
  rewrite <- (R1 (gmul k3 (gmul l1 a)) (gmul k3 (gmul l2 b)) (gmul k3 (gmul l3 c)) (gmul k3 (gmul l0 d))).
  apply lxor_T4.
Qed.
Lemma mix_mix k0 k1 k2 k3 l0 l1 l2 l3 s : In l0 coefs -> In l1 coefs -> In l2 coefs -> In l3 coefs -> st_ok s ->
  (forall x, byte_ok x -> unit_mix k0 k1 k2 k3 l0 l1 l2 l3 x = [x; 0; 0; 0]) -> mix_with k0 k1 k2 k3 (mix_with l0 l1 l2 l3 s) = s.
Proof.
  intros H0 H1 H2 H3 [L F] HU. explode s L. inv_forall.
  assert (Q : forall a b c d, byte_ok a -> byte_ok b -> byte_ok c -> byte_ok d ->
    row k0 k1 k2 k3 (row l0 l1 l2 l3 a b c d) (row l0 l1 l2 l3 b c d a) (row l0 l1 l2 l3 c d a b) (row l0 l1 l2 l3 d a b c) = a).
  { intros. rewrite row_row by assumption. rewrite !HU by assumption. unfold at_. cbn [nth]. rewrite !Z.lxor_0_r. reflexivity. }
  unfold row in Q. norm_state. rewrite !Q by assumption. reflexivity.
Qed.
Lemma inv_mix_mix s : st_ok s -> inv_mix_columns (mix_columns s) = s.
Proof. intros H. apply mix_mix; [cbn; tauto|cbn; tauto|cbn; tauto|cbn; tauto|exact H|apply unit_mix_ok]. Qed.
Lemma mix_inv_mix s : st_ok s -> mix_columns (inv_mix_columns s) = s.
Proof. intros H. apply mix_mix; [cbn; tauto|cbn; tauto|cbn; tauto|cbn; tauto|exact H|apply unit_mix_ok']. Qed.
Lemma inv_mix_xor s t : st_ok s -> st_ok t -> inv_mix_columns (add_round_key s t) = add_round_key (inv_mix_columns s) (inv_mix_columns t).
Proof. apply mix_with_xor. Qed.
