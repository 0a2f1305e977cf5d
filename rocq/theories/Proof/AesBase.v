(** Word/byte lemmas and table sweeps for the AES proofs. *)
From Verif Require Import Base.Word Base.Arr Model.AesTables Model.Aes Spec.AesSpec.

Definition pk (a b c d : Z) : Z := a + 256 * b + 65536 * c + 16777216 * d.
Lemma pk_range a b c d : byte_ok a -> byte_ok b -> byte_ok c -> byte_ok d -> 0 <= pk a b c d < 2 ^ 32.
Proof. unfold byte_ok, pk. change (2 ^ 32) with 4294967296. lia. Qed.
Lemma land255 x : Z.land x 255 = x mod 256.
Proof. change 255 with (2 ^ 8 - 1). rewrite land_mask by lia. reflexivity. Qed.
Lemma mod_uniq a b m r : a = m * b + r -> 0 <= r < m -> a mod m = r.
Proof. intros E H. symmetry. apply (Z.mod_unique a m b r); [left; exact H|exact E]. Qed.
Lemma div_uniq a b m r : a = m * b + r -> 0 <= r < m -> a / m = b.
Proof. intros E H. symmetry. apply (Z.div_unique a m b r); [left; exact H|exact E]. Qed.
Lemma b0_pk a b c d : byte_ok a -> byte_ok b -> byte_ok c -> byte_ok d -> b0 (pk a b c d) = a.
Proof. unfold b0, pk, byte_ok. intros. rewrite land255. apply mod_uniq with (b := b + 256 * c + 65536 * d); lia. Qed.
Lemma b1_pk a b c d : byte_ok a -> byte_ok b -> byte_ok c -> byte_ok d -> b1 (pk a b c d) = b.
Proof.
  unfold b1, pk, byte_ok. intros. rewrite land255, Z.shiftr_div_pow2 by lia. change (2 ^ 8) with 256.
  rewrite (div_uniq _ (b + 256 * c + 65536 * d) 256 a) by lia. apply mod_uniq with (b := c + 256 * d); lia.
Qed.
Lemma b2_pk a b c d : byte_ok a -> byte_ok b -> byte_ok c -> byte_ok d -> b2 (pk a b c d) = c.
Proof.
  unfold b2, pk, byte_ok. intros. rewrite land255, Z.shiftr_div_pow2 by lia. change (2 ^ 16) with 65536.
  rewrite (div_uniq _ (c + 256 * d) 65536 (a + 256 * b)) by lia. apply mod_uniq with (b := d); lia.
Qed.
Lemma b3_pk a b c d : byte_ok a -> byte_ok b -> byte_ok c -> byte_ok d -> b3 (pk a b c d) = d.
Proof.
  unfold b3, pk, byte_ok. intros. rewrite land255, Z.shiftr_div_pow2 by lia. change (2 ^ 24) with 16777216.
  rewrite (div_uniq _ d 16777216 (a + 256 * b + 65536 * c)) by lia. apply mod_uniq with (b := 0); lia.
Qed.
Lemma unpack_pk a b c d : byte_ok a -> byte_ok b -> byte_ok c -> byte_ok d -> unpack (pk a b c d) = [a; b; c; d].
Proof.
  intros. unfold unpack. change (Z.land (pk a b c d) 255) with (b0 (pk a b c d)). change (Z.land (Z.shiftr (pk a b c d) 8) 255) with (b1 (pk a b c d)).
  change (Z.land (Z.shiftr (pk a b c d) 16) 255) with (b2 (pk a b c d)). change (Z.land (Z.shiftr (pk a b c d) 24) 255) with (b3 (pk a b c d)).
  rewrite b0_pk, b1_pk, b2_pk, b3_pk by assumption. reflexivity.
Qed.
Lemma shl32_small x k m : 0 <= k <= 32 -> 0 <= x < 2 ^ m -> 0 <= m -> m + k <= 32 -> shl32 x k = x * 2 ^ k.
Proof.
  intros Hk Hx Hm Hmk. unfold shl32. rewrite Z.shiftl_mul_pow2 by lia. apply wrapu_id. pose proof (pow2_pos k ltac:(lia)).
  split; [apply Z.mul_nonneg_nonneg; lia|]. assert (x * 2 ^ k < 2 ^ m * 2 ^ k) by (apply Z.mul_lt_mono_pos_r; lia).
  rewrite <- Z.pow_add_r in H0 by lia. pose proof (pow2_le (m + k) 32 ltac:(lia)). lia.
Qed.
Lemma pack_pk a b c d : byte_ok a -> byte_ok b -> byte_ok c -> byte_ok d -> pack [a; b; c; d] = pk a b c d.
Proof.
  unfold byte_ok. intros Ha Hb Hc Hd. unfold pack, at_. cbn [nth]. rewrite !land255, !Z.mod_small by assumption.
  rewrite (shl32_small d 24 8), (shl32_small c 16 8), (shl32_small b 8 8) by (try change (2 ^ 8) with 256; lia).
  rewrite (lor_disjoint' (c * 2 ^ 16) d 24) by (change (2 ^ 24) with 16777216; change (2 ^ 16) with 65536; lia).
  change (2 ^ 24) with 16777216. change (2 ^ 16) with 65536. change (2 ^ 8) with 256.
  replace (c * 65536 + d * 16777216) with ((c + d * 256) * 2 ^ 16) by (change (2 ^ 16) with 65536; lia).
  rewrite (lor_disjoint' (b * 256) (c + d * 256) 16) by (change (2 ^ 16) with 65536; lia).
  replace (b * 256 + (c + d * 256) * 2 ^ 16) with ((b + c * 256 + d * 65536) * 2 ^ 8) by (change (2 ^ 16) with 65536; change (2 ^ 8) with 256; lia).
  rewrite lor_disjoint' by (change (2 ^ 8) with 256; lia). unfold pk. change (2 ^ 8) with 256. lia.
Qed.
Lemma lxor_pk a b c d a' b' c' d' : byte_ok a -> byte_ok b -> byte_ok c -> byte_ok d -> byte_ok a' -> byte_ok b' -> byte_ok c' -> byte_ok d' ->
  Z.lxor (pk a b c d) (pk a' b' c' d') = pk (Z.lxor a a') (Z.lxor b b') (Z.lxor c c') (Z.lxor d d').
Proof.
  unfold byte_ok. intros. unfold pk.
  replace (a + 256 * b + 65536 * c + 16777216 * d) with (a + 2 ^ 8 * (b + 2 ^ 8 * (c + 2 ^ 8 * d))) by (change (2 ^ 8) with 256; lia).
  replace (a' + 256 * b' + 65536 * c' + 16777216 * d') with (a' + 2 ^ 8 * (b' + 2 ^ 8 * (c' + 2 ^ 8 * d'))) by (change (2 ^ 8) with 256; lia).
  rewrite !lxor_split by (try change (2 ^ 8) with 256; lia). change (2 ^ 8) with 256. lia.
Qed.
Lemma rotl8_pk a b c d : byte_ok a -> byte_ok b -> byte_ok c -> byte_ok d -> rotl8 (pk a b c d) = pk d a b c.
Proof.
  unfold byte_ok. intros. unfold rotl8, shl32, wrapu. rewrite Z.shiftl_mul_pow2, Z.shiftr_div_pow2 by lia.
  rewrite (div_uniq _ d (2 ^ 24) (a + 256 * b + 65536 * c)) by (unfold pk; change (2 ^ 24) with 16777216; lia).
  rewrite (mod_uniq _ d (2 ^ 32) ((a + 256 * b + 65536 * c) * 2 ^ 8)) by (unfold pk; change (2 ^ 32) with 4294967296; change (2 ^ 8) with 256; lia).
  rewrite lor_disjoint' by (change (2 ^ 8) with 256; lia). unfold pk. change (2 ^ 8) with 256. lia.
Qed.
Lemma rotl16_pk a b c d : byte_ok a -> byte_ok b -> byte_ok c -> byte_ok d -> rotl16 (pk a b c d) = pk c d a b.
Proof.
  unfold byte_ok. intros. unfold rotl16, shl32, wrapu. rewrite Z.shiftl_mul_pow2, Z.shiftr_div_pow2 by lia.
  rewrite (div_uniq _ (c + 256 * d) (2 ^ 16) (a + 256 * b)) by (unfold pk; change (2 ^ 16) with 65536; lia).
  rewrite (mod_uniq _ (c + 256 * d) (2 ^ 32) ((a + 256 * b) * 2 ^ 16)) by (unfold pk; change (2 ^ 32) with 4294967296; change (2 ^ 16) with 65536; lia).
  rewrite lor_disjoint' by (change (2 ^ 16) with 65536; lia). unfold pk. change (2 ^ 16) with 65536. lia.
Qed.
Lemma rotl24_pk a b c d : byte_ok a -> byte_ok b -> byte_ok c -> byte_ok d -> rotl24 (pk a b c d) = pk b c d a.
Proof.
  unfold byte_ok. intros. unfold rotl24, shl32, wrapu. rewrite Z.shiftl_mul_pow2, Z.shiftr_div_pow2 by lia.
  rewrite (div_uniq _ (b + 256 * c + 65536 * d) (2 ^ 8) a) by (unfold pk; change (2 ^ 8) with 256; lia).
  rewrite (mod_uniq _ (b + 256 * c + 65536 * d) (2 ^ 32) (a * 2 ^ 24)) by (unfold pk; change (2 ^ 32) with 4294967296; change (2 ^ 24) with 16777216; lia).
  rewrite lor_disjoint' by (change (2 ^ 24) with 16777216; lia). unfold pk. change (2 ^ 24) with 16777216. lia.
Qed.

(** ** sweeps *)
Definition isb (x : Z) : bool := (0 <=? x) && (x <? 256).
Lemma isb_ok x : isb x = true -> byte_ok x.
Proof. unfold isb, byte_ok. rewrite andb_true_iff, Z.leb_le, Z.ltb_lt. tauto. Qed.
Ltac sweep x Hx := let P := eval pattern x in x in idtac.
Lemma sbox_byte x : byte_ok x -> byte_ok (sbox x).
Proof. intros H. apply isb_ok. apply (byte_sweep (fun x => isb (sbox x))); [vm_compute; reflexivity|exact H]. Qed.
Lemma inv_sbox_byte x : byte_ok x -> byte_ok (inv_sbox x).
Proof. intros H. apply isb_ok. apply (byte_sweep (fun x => isb (inv_sbox x))); [vm_compute; reflexivity|exact H]. Qed.
Lemma inv_sbox_sbox x : byte_ok x -> inv_sbox (sbox x) = x.
Proof. intros H. apply Z.eqb_eq. apply (byte_sweep (fun x => inv_sbox (sbox x) =? x)); [vm_compute; reflexivity|exact H]. Qed.
Lemma sbox_inv_sbox x : byte_ok x -> sbox (inv_sbox x) = x.
Proof. intros H. apply Z.eqb_eq. apply (byte_sweep (fun x => sbox (inv_sbox x) =? x)); [vm_compute; reflexivity|exact H]. Qed.
Definition coefs : list Z := [1; 2; 3; 9; 11; 13; 14].
Lemma gmul_byte k x : In k coefs -> byte_ok x -> byte_ok (gmul k x).
Proof.
  intros Hk H. assert (A : forallb (fun k => isb (gmul k x)) coefs = true).
  { apply (byte_sweep (fun x => forallb (fun k => isb (gmul k x)) coefs)); [vm_compute; reflexivity|exact H]. }
  rewrite forallb_forall in A. apply isb_ok. apply A. exact Hk.
Qed.
Lemma gmul_1 x : byte_ok x -> gmul 1 x = x.
Proof. intros H. apply Z.eqb_eq. apply (byte_sweep (fun x => gmul 1 x =? x)); [vm_compute; reflexivity|exact H]. Qed.
Lemma tab_F x : byte_ok x -> tab FTABLE x = pk (gmul 2 (sbox x)) (sbox x) (sbox x) (gmul 3 (sbox x)).
Proof.
  intros H. apply Z.eqb_eq. apply (byte_sweep (fun x => let s := sbox x in tab FTABLE x =? pk (gmul 2 s) s s (gmul 3 s))); [vm_compute; reflexivity|exact H].
Qed.
Lemma tab_FB x : byte_ok x -> tab FBSUB x = sbox x.
Proof. intros H. apply Z.eqb_eq. apply (byte_sweep (fun x => tab FBSUB x =? sbox x)); [vm_compute; reflexivity|exact H]. Qed.
Lemma tab_R x : byte_ok x -> tab RTABLE x = pk (gmul 14 (inv_sbox x)) (gmul 9 (inv_sbox x)) (gmul 13 (inv_sbox x)) (gmul 11 (inv_sbox x)).
Proof.
  intros H. apply Z.eqb_eq.
  apply (byte_sweep (fun x => let s := inv_sbox x in tab RTABLE x =? pk (gmul 14 s) (gmul 9 s) (gmul 13 s) (gmul 11 s))); [vm_compute; reflexivity|exact H].
Qed.
Lemma tab_RB x : byte_ok x -> tab RBSUB x = inv_sbox x.
Proof. intros H. apply Z.eqb_eq. apply (byte_sweep (fun x => tab RBSUB x =? inv_sbox x)); [vm_compute; reflexivity|exact H]. Qed.
Lemma bmul_ok k x : In k INCO -> byte_ok x -> bmul k x = gmul k x.
Proof.
  intros Hk H. assert (A : forallb (fun k => bmul k x =? gmul k x) INCO = true).
  { apply (byte_sweep (fun x => forallb (fun k => bmul k x =? gmul k x) INCO)); [vm_compute; reflexivity|exact H]. }
  rewrite forallb_forall in A. apply Z.eqb_eq. apply A. exact Hk.
Qed.
(** the logarithm tables are right for every pair of bytes *)
Lemma xtime_xor x y : byte_ok x -> byte_ok y -> xtime (Z.lxor x y) = Z.lxor (xtime x) (xtime y).
Proof.
  intros Hx Hy. apply Z.eqb_eq. apply (byte_sweep2 (fun x y => xtime (Z.lxor x y) =? Z.lxor (xtime x) (xtime y))); [vm_compute; reflexivity|exact Hx|exact Hy].
Qed.
Lemma xtime_byte x : byte_ok x -> byte_ok (xtime x).
Proof. intros H. apply isb_ok. apply (byte_sweep (fun x => isb (xtime x))); [vm_compute; reflexivity|exact H]. Qed.
Lemma lxor4 a b c d : Z.lxor (Z.lxor a b) (Z.lxor c d) = Z.lxor (Z.lxor a c) (Z.lxor b d).
Proof. apply Z.bits_inj'. intros i _. rewrite !Z.lxor_spec. destruct (Z.testbit a i), (Z.testbit b i), (Z.testbit c i), (Z.testbit d i); reflexivity. Qed.
Lemma gmul_bits_xor n : forall k x y, byte_ok x -> byte_ok y -> gmul_bits n (Z.lxor x y) k = Z.lxor (gmul_bits n x k) (gmul_bits n y k).
Proof.
  induction n as [|n IH]; intros k x y Hx Hy; cbn [gmul_bits]; [reflexivity|].
  rewrite xtime_xor by assumption. rewrite IH by (apply xtime_byte; assumption). destruct (Z.odd k); [apply lxor4|].
  rewrite !Z.lxor_0_l. reflexivity.
Qed.
(** multiplication by a constant is linear *)
Lemma gmul_xor k x y : byte_ok x -> byte_ok y -> gmul k (Z.lxor x y) = Z.lxor (gmul k x) (gmul k y).
Proof. intros. unfold gmul. apply gmul_bits_xor; assumption. Qed.
Arguments gmul : simpl never.
Arguments sbox : simpl never.
Arguments inv_sbox : simpl never.
Arguments pk : simpl never.
