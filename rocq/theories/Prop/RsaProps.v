(** C41: RSA (rsa.rs encrypt, decrypt over ff.rs), for every key and message. *)
From Verif Require Import Base.Word Model.Big Model.Ff Model.Roms Spec.BigSpec Spec.RsaKeySpec Proof.BigVal Proof.NumTheory.
From Verif Require Import Proof.BigBytes Proof.FfBase Proof.FfMul Proof.FfMont Proof.FfPow Proof.FfInv Proof.RsaProof Proof.Pocklington.
Import ListNotations.
Open Scope Z_scope.

Lemma wf_cn c n f : ff_wf c n f -> length f = n /\ Forall (cn c) f.
Proof. intros [L H]. split; [exact L|]. eapply Forall_impl; [|exact H]. intros x [A A']. split; assumption. Qed.
Lemma odd1 z : Z.odd z = true -> z mod 2 = 1. Proof. intros H. rewrite Zmod_odd, H. reflexivity. Qed.
Lemma room_of c (Hff : ff_ok c) n k p : n = (2 ^ k)%nat -> length p = n -> factor_room c n (fval c p) -> room c p k (8 * MODBYTES c * Z.of_nat n).
Proof.
  intros -> Lp [H|[H|H]]; unfold room, stable.
  - left. left. destruct k; [reflexivity|]. rewrite pow2S in H. pose proof (pow2pos k). lia.
  - right. change (spare_half c) with (FEXC c) in H. pose proof (FEXC_eq c Hff). lia.
  - left. right. exact H.
Qed.

(** Public operation: for every odd modulus of 2, 4 or 8 Bigs, every exponent 1 <= e < 2^CHUNK and every input that is long
    enough, [encrypt] writes the big-endian encoding of m^e mod N (m need not be reduced) and leaves the rest of the buffer. *)
Theorem C41_encrypt : forall c k pb f g, ff_ok c -> (1 <= k <= 3)%nat -> MODBYTES c < 65536 ->
  ff_wf c (2 ^ k) (k_n pb) -> Z.odd (fval c (k_n pb)) = true -> 1 <= k_e pb < 2 ^ CHUNK c ->
  let L := (2 ^ k * Z.to_nat (MODBYTES c))%nat in
  bytes f -> (L <= length f)%nat -> (L <= length g)%nat ->
  rsa_encrypt c pb f g = Some (i2osp (os2ip (firstn L f) ^ k_e pb mod fval c (k_n pb)) L ++ skipn L g).
Proof.
  intros c k pb f g Hff Hk HM Hn Ho He L Hf Lf Lg. destruct (wf_cn _ _ _ Hn) as [Ln Cn].
  exact (encrypt_ok c Hff k pb f g Hk HM Ln Cn (odd1 _ Ho) He Hf Lf Lg).
Qed.
Print Assumptions C41_encrypt.

(** Private operation: the CRT formula of its inputs, exactly, for every odd p, q (of one Big: prime), whatever dp, dq, c are. *)
Theorem C41_decrypt : forall c k pv g f, ff_ok c -> (k <= 2)%nat -> MODBYTES c < 65536 ->
  let n := (2 ^ k)%nat in let P := fval c (k_p pv) in let Q := fval c (k_q pv) in
  ff_wf c n (k_p pv) -> ff_wf c n (k_q pv) -> ff_wf c n (k_dp pv) -> ff_wf c n (k_dq pv) -> ff_wf c n (k_c pv) ->
  Z.odd P = true -> Z.odd Q = true -> (k <> 0%nat \/ (prime P /\ prime Q)) -> factor_room c n P -> factor_room c n Q ->
  let L := rsa_bytes c n in
  bytes g -> (L <= length g)%nat -> (L <= length f)%nat ->
  let G := os2ip (firstn L g) in
  let mp := G ^ fval c (k_dp pv) mod P in let mq := G ^ fval c (k_dq pv) mod Q in
  rsa_decrypt c pv g f = Some (i2osp (mp + P * ((fval c (k_c pv) * (mq - mp)) mod Q)) L ++ skipn L f).
Proof.
  intros c k pv g f Hff Hk HM n P Q Hp Hq Hdp Hdq Hc Op Oq Pr Rp Rq L Hg Lg Lf G mp mq.
  destruct (wf_cn _ _ _ Hp) as [Lp Cp]. destruct (wf_cn _ _ _ Hq) as [Lq Cq]. destruct (wf_cn _ _ _ Hdp) as [Ldp Cdp].
  destruct (wf_cn _ _ _ Hdq) as [Ldq Cdq]. destruct (wf_cn _ _ _ Hc) as [Lc Cc].
  apply (decrypt_ok c Hff k Hk HM pv Lp Lq Ldp Ldq Lc Cp Cq Cdp Cdq Cc (odd1 _ Op) (odd1 _ Oq)
    (room_of c Hff n k _ eq_refl Lp Rp) (room_of c Hff n k _ eq_refl Lq Rq) Pr g f Hg Lg Lf).
Qed.
Print Assumptions C41_decrypt.

(** the CRT value is the unique solution *)
Lemma crt_val P Q cc mp mq : prime P -> prime Q -> (cc * P) mod Q = 1 -> 0 <= mp < P -> 0 <= mq < Q ->
  let v := mp + P * ((cc * (mq - mp)) mod Q) in
  0 <= v < P * Q /\ v mod P = mp /\ v mod Q = mq /\ Z.gcd P Q = 1.
Proof.
  intros HP HQ Hc Bp Bq v. pose proof (prime_ge_2 P HP) as P2. pose proof (prime_ge_2 Q HQ) as Q2.
  pose proof (Z.mod_pos_bound (cc * (mq - mp)) Q ltac:(lia)) as Bt. set (t := (cc * (mq - mp)) mod Q) in *.
  assert (Bv : 0 <= v < P * Q). { unfold v. assert (0 <= P * t) by (apply Z.mul_nonneg_nonneg; lia). assert (P * (t + 1) <= P * Q) by (apply Z.mul_le_mono_nonneg_l; lia). lia. }
  split; [exact Bv|]. split. { unfold v. rewrite Z.add_comm, Z.mul_comm, Z.add_comm, Z.mod_add by lia. apply Z.mod_small. exact Bp. }
  split.
  - unfold v, t. rewrite <- Zplus_mod_idemp_r, Zmult_mod_idemp_r, Zplus_mod_idemp_r.
    replace (mp + P * (cc * (mq - mp))) with (mp + (cc * P) * (mq - mp)) by ring.
    rewrite <- Zplus_mod_idemp_r, <- Zmult_mod_idemp_l, Hc, Z.mul_1_l, Zplus_mod_idemp_r. replace (mp + (mq - mp)) with mq by lia. apply Z.mod_small. exact Bq.
  - assert (D : (Z.gcd P Q | 1)). { rewrite <- Hc. rewrite Z.mod_eq by lia. apply Z.divide_sub_r.
      - apply Z.divide_mul_r. apply Z.gcd_divide_l. - apply Z.divide_mul_l. apply Z.gcd_divide_r. }
    apply Z.divide_1_r_nonneg; [apply Z.gcd_nonneg|exact D].
Qed.

Section Key.
Variables (c : cfg) (k : nat) (pb : rsa_pub) (pv : rsa_priv).
Hypothesis Hff : ff_ok c.
Hypothesis Hk : (k <= 2)%nat.
Hypothesis HM : MODBYTES c < 65536.
Notation n := (2 ^ k)%nat.
Hypothesis Kp : rsa_keypair c n pb pv.
Notation P := (fval c (k_p pv)).
Notation Q := (fval c (k_q pv)).
Notation NN := (fval c (k_n pb)).
Hypothesis RP : factor_room c n P.
Hypothesis RQ : factor_room c n Q.
Notation L := (rsa_bytes c n).

Lemma key_odd : Z.odd NN = true.
Proof. rewrite (kp_pq _ _ _ _ Kp), Z.odd_mul, (kp_odd_p _ _ _ _ Kp), (kp_odd_q _ _ _ _ Kp). reflexivity. Qed.
Lemma key_pos : 0 < NN.
Proof. rewrite (kp_pq _ _ _ _ Kp). pose proof (prime_ge_2 _ (kp_prime_p _ _ _ _ Kp)). pose proof (prime_ge_2 _ (kp_prime_q _ _ _ _ Kp)). apply Z.mul_pos_pos; lia. Qed.
Lemma key_top : NN < 256 ^ Z.of_nat L.
Proof. destruct (wf_cn _ _ _ (kp_n _ _ _ _ Kp)) as [A A']. pose proof (cn_range c Hff _ A') as H. rewrite A, (R256 c Hff) in H. apply H. Qed.
Lemma enc f g : bytes f -> (L <= length f)%nat -> (L <= length g)%nat ->
  rsa_encrypt c pb f g = Some (i2osp (os2ip (firstn L f) ^ k_e pb mod NN) L ++ skipn L g).
Proof.
  intros Hf Lf Lg. destruct (wf_cn _ _ _ (kp_n _ _ _ _ Kp)) as [A A']. unfold rsa_bytes in *. rewrite <- pow2S in *.
  exact (encrypt_ok c Hff (S k) pb f g ltac:(lia) HM A A' (odd1 _ key_odd) (kp_e _ _ _ _ Kp) Hf Lf Lg).
Qed.
Lemma dec g f : bytes g -> (L <= length g)%nat -> (L <= length f)%nat ->
  exists v, rsa_decrypt c pv g f = Some (i2osp v L ++ skipn L f) /\ 0 <= v < NN
    /\ v mod P = os2ip (firstn L g) ^ fval c (k_dp pv) mod P /\ v mod Q = os2ip (firstn L g) ^ fval c (k_dq pv) mod Q /\ Z.gcd P Q = 1.
Proof.
  intros Hg Lg Lf. rewrite (kp_pq _ _ _ _ Kp). pose proof Kp as KK; destruct KK. pose proof (prime_ge_2 _ kp_prime_p) as P2. pose proof (prime_ge_2 _ kp_prime_q) as Q2.
  eexists. split; [exact (C41_decrypt c k pv g f Hff Hk HM kp_p kp_q kp_dp kp_dq kp_c kp_odd_p kp_odd_q (or_intror (conj kp_prime_p kp_prime_q)) RP RQ Hg Lg Lf)|].
  cbv zeta. apply crt_val; try assumption; apply Z.mod_pos_bound; lia.
Qed.
Lemma dp_pos x y : 1 <= x -> 0 <= y -> forall m, (x * y) mod m = 1 -> 1 <= x * y.
Proof. intros Hx Hy m E. destruct (Z.eq_dec y 0) as [->|]; [rewrite Z.mul_0_r, Zmod_0_l in E; discriminate|]. assert (1 * 1 <= x * y) by (apply Z.mul_le_mono_nonneg; lia). lia. Qed.
Lemma ed_one p d m : prime p -> Z.odd p = true -> 0 <= d -> (k_e pb * d) mod (p - 1) = 1 -> (m ^ k_e pb) ^ d mod p = m mod p.
Proof.
  intros Hp Ho Hd E. pose proof (kp_e _ _ _ _ Kp) as He. pose proof (prime_ge_2 p Hp) as P2. rewrite <- Z.pow_mul_r by lia. apply pow_ed; [exact Hp|eapply dp_pos; [lia|lia|exact E]|].
  assert (p <> 2) by (intros ->; discriminate Ho). rewrite E. symmetry. apply Z.mod_small. lia.
Qed.
Lemma mod_fact p a : 0 < p -> (p | NN) -> (a mod NN) mod p = a mod p.
Proof. intros Hp D. pose proof key_pos. symmetry. apply Zmod_div_mod; [exact Hp|exact H|exact D]. Qed.

Lemma split_pq : 2 <= P /\ 2 <= Q /\ (P | NN) /\ (Q | NN) /\ 0 <= fval c (k_dp pv) /\ 0 <= fval c (k_dq pv).
Proof.
  pose proof (kp_pq _ _ _ _ Kp) as E. pose proof Kp as KK; destruct KK. destruct (wf_cn _ _ _ kp_dp) as [_ A]. destruct (wf_cn _ _ _ kp_dq) as [_ A'].
  pose proof (cn_range c Hff _ A). pose proof (cn_range c Hff _ A'). pose proof (prime_ge_2 _ kp_prime_p). pose proof (prime_ge_2 _ kp_prime_q).
  repeat split; try lia; rewrite E; [exists Q|exists P]; lia.
Qed.

Lemma head (v l : list Z) : (L <= length v)%nat -> length v = L -> firstn L (v ++ l) = v.
Proof. intros A E. rewrite firstn_app, E, Nat.sub_diag, firstn_O, app_nil_r. apply firstn_all2. lia. Qed.
Lemma back x : bytes x -> (L <= length x)%nat -> i2osp (os2ip (firstn L x)) L = firstn L x.
Proof. intros Hx Lx. rewrite <- (i2osp_os2ip (firstn L x)) at 2 by (apply bytes_firstn; exact Hx). rewrite firstn_length_le by exact Lx. reflexivity. Qed.
Lemma bytes_skipn j x : bytes x -> bytes (skipn j x).
Proof. intros H. rewrite <- (firstn_skipn j x) in H. apply Forall_app in H. tauto. Qed.
Lemma bytes_out v x : bytes x -> bytes (i2osp v L ++ skipn L x).
Proof. intros Hx. apply Forall_app. split; [apply i2osp_bytes|apply bytes_skipn; exact Hx]. Qed.
Lemma len_out v x : (L <= length (i2osp v L ++ skipn L x))%nat.
Proof. rewrite app_length, i2osp_length. lia. Qed.
Lemma head_out v x : firstn L (i2osp v L ++ skipn L x) = i2osp v L.
Proof. apply head; rewrite i2osp_length; lia. Qed.

Lemma roundtrip f g h : bytes f -> (L <= length f)%nat -> (L <= length g)%nat -> (L <= length h)%nat -> bytes g -> os2ip (firstn L f) < NN ->
  exists ct, rsa_encrypt c pb f g = Some ct /\ rsa_decrypt c pv ct h = Some (firstn L f ++ skipn L h).
Proof.
  intros Hf Lf Lg Lh Hg Hm. rewrite (enc f g Hf Lf Lg). eexists. split; [reflexivity|]. pose proof key_pos as Np. pose proof key_top as Nt.
  rewrite <- (back f Hf Lf) at 2. pose proof (os2ip_range _ (bytes_firstn L f Hf)) as Rm.
  set (m := os2ip (firstn L f)) in *. pose proof (Z.mod_pos_bound (m ^ k_e pb) NN Np) as Bc.
  destruct (dec _ h (bytes_out (m ^ k_e pb mod NN) g Hg) (len_out _ g) Lh) as [v [V1 [V2 [V3 [V4 Gc]]]]].
  rewrite head_out, os2ip_i2osp, (Z.mod_small (m ^ k_e pb mod NN)) in V3, V4 by lia.
  destruct split_pq as [P2 [Q2 [Dp [Dq [D1 D2]]]]]. pose proof (kp_pq _ _ _ _ Kp) as Epq.
  rewrite V1. f_equal. f_equal. f_equal. apply (crt_unique P Q); try lia; try exact Gc.
  - rewrite V3, <- pow_mod_l, mod_fact, pow_mod_l by (lia || assumption). apply ed_one; [apply (kp_prime_p _ _ _ _ Kp)|apply (kp_odd_p _ _ _ _ Kp)|exact D1|apply (kp_edp _ _ _ _ Kp)].
  - rewrite V4, <- pow_mod_l, mod_fact, pow_mod_l by (lia || assumption). apply ed_one; [apply (kp_prime_q _ _ _ _ Kp)|apply (kp_odd_q _ _ _ _ Kp)|exact D2|apply (kp_edq _ _ _ _ Kp)].
Qed.

Lemma signature f g h : bytes f -> (L <= length f)%nat -> (L <= length g)%nat -> (L <= length h)%nat -> bytes g -> os2ip (firstn L f) < NN ->
  exists sg, rsa_decrypt c pv f g = Some sg /\ rsa_encrypt c pb sg h = Some (firstn L f ++ skipn L h).
Proof.
  intros Hf Lf Lg Lh Hg Hm. pose proof key_pos as Np. pose proof key_top as Nt.
  destruct (dec f g Hf Lf Lg) as [v [V1 [V2 [V3 [V4 Gc]]]]]. rewrite V1. eexists. split; [reflexivity|].
  rewrite (enc _ h (bytes_out v g Hg) (len_out _ g) Lh), head_out, os2ip_i2osp, (Z.mod_small v) by lia.
  rewrite <- (back f Hf Lf) at 1. pose proof (os2ip_range _ (bytes_firstn L f Hf)) as Rm.
  set (m := os2ip (firstn L f)) in *. pose proof (Z.mod_pos_bound (v ^ k_e pb) NN Np) as Bc.
  destruct split_pq as [P2 [Q2 [Dp [Dq [D1 D2]]]]]. pose proof (kp_pq _ _ _ _ Kp) as Epq. pose proof (kp_e _ _ _ _ Kp) as He.
  assert (Sw : forall d, 0 <= d -> (m ^ d) ^ k_e pb = (m ^ k_e pb) ^ d) by (intros d Hd; rewrite <- !Z.pow_mul_r by lia; f_equal; lia).
  f_equal. f_equal. f_equal. apply (crt_unique P Q); try lia; try exact Gc.
  - rewrite mod_fact, <- pow_mod_l, V3, pow_mod_l, Sw by (lia || assumption). apply ed_one; [apply (kp_prime_p _ _ _ _ Kp)|apply (kp_odd_p _ _ _ _ Kp)|exact D1|apply (kp_edp _ _ _ _ Kp)].
  - rewrite mod_fact, <- pow_mod_l, V4, pow_mod_l, Sw by (lia || assumption). apply ed_one; [apply (kp_prime_q _ _ _ _ Kp)|apply (kp_odd_q _ _ _ _ Kp)|exact D2|apply (kp_edq _ _ _ _ Kp)].
Qed.
End Key.

(** ** the property *)
Theorem C41_roundtrip : forall c k pb pv f g h, ff_ok c -> (k <= 2)%nat -> MODBYTES c < 65536 ->
  let n := (2 ^ k)%nat in let L := rsa_bytes c n in
  rsa_keypair c n pb pv -> factor_room c n (fval c (k_p pv)) -> factor_room c n (fval c (k_q pv)) ->
  bytes f -> bytes g -> (L <= length f)%nat -> (L <= length g)%nat -> (L <= length h)%nat -> os2ip (firstn L f) < fval c (k_n pb) ->
  exists ct, rsa_encrypt c pb f g = Some ct /\ rsa_decrypt c pv ct h = Some (firstn L f ++ skipn L h).
Proof. intros c k pb pv f g h Hff Hk HM n L Kp RP RQ Hf Hg Lf Lg Lh Hm. exact (roundtrip c k pb pv Hff Hk HM Kp RP RQ f g h Hf Lf Lg Lh Hg Hm). Qed.
Print Assumptions C41_roundtrip.
(** the other composition (signatures): encrypt inverts decrypt *)
Theorem C41_signature : forall c k pb pv f g h, ff_ok c -> (k <= 2)%nat -> MODBYTES c < 65536 ->
  let n := (2 ^ k)%nat in let L := rsa_bytes c n in
  rsa_keypair c n pb pv -> factor_room c n (fval c (k_p pv)) -> factor_room c n (fval c (k_q pv)) ->
  bytes f -> bytes g -> (L <= length f)%nat -> (L <= length g)%nat -> (L <= length h)%nat -> os2ip (firstn L f) < fval c (k_n pb) ->
  exists sg, rsa_decrypt c pv f g = Some sg /\ rsa_encrypt c pb sg h = Some (firstn L f ++ skipn L h).
Proof. intros c k pb pv f g h Hff Hk HM n L Kp RP RQ Hf Hg Lf Lg Lh Hm. exact (signature c k pb pv Hff Hk HM Kp RP RQ f g h Hf Lf Lg Lh Hg Hm). Qed.
Print Assumptions C41_signature.

(** ** the shipped configurations; (configuration, number of Bigs of a prime factor, HFLEN in rom_rsa*.rs) *)
Definition rsa_free : list (cfg * nat) := [(cfg_rsa2048_32, 0%nat); (cfg_rsa2048_64, 0%nat); (cfg_rsa3072_64, 2%nat); (cfg_rsa4096_64, 2%nat)].
Definition rsa_tight : list (cfg * nat) := [(cfg_rsa3072_32, 2%nat); (cfg_rsa4096_32, 2%nat)].
Lemma rsa_cfgs_ok : forallb (fun x => ff_okb (fst x) && (MODBYTES (fst x) <? 65536) && (snd x <=? 2)%nat) (rsa_free ++ rsa_tight) = true.
Proof. vm_compute. reflexivity. Qed.
Lemma rsa_free_room : forallb (fun x => (snd x =? 0)%nat || (8 * (spare_half (fst x) + 8 * MODBYTES (fst x) * Z.of_nat (2 ^ snd x) + 3) <=? 10 * spare_half (fst x))) rsa_free = true.
Proof. vm_compute. reflexivity. Qed.

(** RSA-2048 on both word sizes, RSA-3072 and RSA-4096 on 64-bit limbs: no condition beyond a well-formed key *)
Theorem C41_shipped : forall c k pb pv f g h, In (c, k) rsa_free ->
  let n := (2 ^ k)%nat in let L := rsa_bytes c n in rsa_keypair c n pb pv ->
  bytes f -> bytes g -> (L <= length f)%nat -> (L <= length g)%nat -> (L <= length h)%nat -> os2ip (firstn L f) < fval c (k_n pb) ->
  (exists ct, rsa_encrypt c pb f g = Some ct /\ rsa_decrypt c pv ct h = Some (firstn L f ++ skipn L h)) /\
  (exists sg, rsa_decrypt c pv f g = Some sg /\ rsa_encrypt c pb sg h = Some (firstn L f ++ skipn L h)).
Proof.
  intros c k pb pv f g h Hin n L Kp Hf Hg Lf Lg Lh Hm.
  pose proof (proj1 (forallb_forall _ _) rsa_cfgs_ok (c, k) (in_or_app _ _ _ (or_introl Hin))) as E1. pose proof (proj1 (forallb_forall _ _) rsa_free_room (c, k) Hin) as E2.
  cbn [fst snd] in E1, E2. rewrite !Bool.andb_true_iff, Nat.leb_le, Z.ltb_lt in E1. destruct E1 as [[E1 E1'] E1''].
  assert (RR : forall p, factor_room c n p). { intros p. rewrite Bool.orb_true_iff, Nat.eqb_eq, Z.leb_le in E2. destruct E2 as [E2|E2]; [left; unfold n; rewrite E2; reflexivity|right; left; exact E2]. }
  split; [exact (C41_roundtrip c k pb pv f g h E1 E1'' E1' Kp (RR _) (RR _) Hf Hg Lf Lg Lh Hm)|exact (C41_signature c k pb pv f g h E1 E1'' E1' Kp (RR _) (RR _) Hf Hg Lf Lg Lh Hm)].
Qed.
Print Assumptions C41_shipped.
(** RSA-3072 and RSA-4096 on 32-bit limbs (7 or 9 spare bits per Big): proved when neither factor lies in the top 1/129
    (1/513) of the range; without that condition the bound on the lazily reduced ladder values is not proved. *)
Theorem C57_shipped32_partial : forall c k pb pv f g h, In (c, k) rsa_tight ->
  let n := (2 ^ k)%nat in let L := rsa_bytes c n in rsa_keypair c n pb pv ->
  fval c (k_p pv) * (spare_half c + 1) <= spare_half c * bigR c ^ Z.of_nat n -> fval c (k_q pv) * (spare_half c + 1) <= spare_half c * bigR c ^ Z.of_nat n ->
  bytes f -> bytes g -> (L <= length f)%nat -> (L <= length g)%nat -> (L <= length h)%nat -> os2ip (firstn L f) < fval c (k_n pb) ->
  (exists ct, rsa_encrypt c pb f g = Some ct /\ rsa_decrypt c pv ct h = Some (firstn L f ++ skipn L h)) /\
  (exists sg, rsa_decrypt c pv f g = Some sg /\ rsa_encrypt c pb sg h = Some (firstn L f ++ skipn L h)).
Proof.
  intros c k pb pv f g h Hin n L Kp RP RQ Hf Hg Lf Lg Lh Hm.
  pose proof (proj1 (forallb_forall _ _) rsa_cfgs_ok (c, k) (in_or_app _ _ _ (or_intror Hin))) as E1.
  cbn [fst snd] in E1. rewrite !Bool.andb_true_iff, Nat.leb_le, Z.ltb_lt in E1. destruct E1 as [[E1 E1'] E1''].
  split; [exact (C41_roundtrip c k pb pv f g h E1 E1'' E1' Kp (or_intror (or_intror RP)) (or_intror (or_intror RQ)) Hf Hg Lf Lg Lh Hm)
    |exact (C41_signature c k pb pv f g h E1 E1'' E1' Kp (or_intror (or_intror RP)) (or_intror (or_intror RQ)) Hf Hg Lf Lg Lh Hm)].
Qed.
Print Assumptions C57_shipped32_partial.

(** ** e = 0 is not handled: m^0 = 1, but [encrypt] returns m / R modulo N, for every odd modulus and message *)
Theorem C41_encrypt_e0_refuted : forall c k pb f g, ff_ok c -> (1 <= k <= 3)%nat -> MODBYTES c < 65536 ->
  ff_wf c (2 ^ k) (k_n pb) -> Z.odd (fval c (k_n pb)) = true -> k_e pb = 0 ->
  let L := (2 ^ k * Z.to_nat (MODBYTES c))%nat in
  bytes f -> (L <= length f)%nat -> (L <= length g)%nat ->
  exists s, rsa_encrypt c pb f g = Some (i2osp s L ++ skipn L g) /\ 0 <= s < fval c (k_n pb)
    /\ (s * 256 ^ Z.of_nat L) mod fval c (k_n pb) = os2ip (firstn L f) mod fval c (k_n pb).
Proof.
  intros c k pb f g Hff Hk HM Hn Ho He L Hf Lf Lg. destruct (wf_cn _ _ _ Hn) as [Ln Cn].
  exact (encrypt0_ok c Hff k pb f g Hk HM Ln Cn (odd1 _ Ho) He Hf Lf Lg).
Qed.
Print Assumptions C41_encrypt_e0_refuted.

(** ** witnesses: a tiny key (p = 65537, q = 257, e = 3) in a configuration with 8-byte Bigs; the hypotheses hold and the functions run *)
Definition tiny : cfg := mkcfg 32 28 8.
Definition tpub : rsa_pub := mk_pub 3 [[65537 * 257; 0; 0]; [0; 0; 0]].
Definition tpriv : rsa_priv := mk_priv [[65537; 0; 0]] [[257; 0; 0]] [[43691; 0; 0]] [[171; 0; 0]] [[129; 0; 0]].
Lemma tiny_wf n f : forallb (fun x => (length x =? 3)%nat && forallb (fun d => (0 <=? d) && (d <? 2 ^ 28)) x && (bval tiny x <? bigR tiny)) f = true -> length f = n -> ff_wf tiny n f.
Proof.
  intros H L. split; [exact L|]. apply Forall_forall. intros x Hx. rewrite forallb_forall in H. specialize (H x Hx). rewrite !Bool.andb_true_iff, Nat.eqb_eq, Z.ltb_lt in H.
  destruct H as [[A A'] A'']. split; [|exact A'']. split; [exact A|]. apply Forall_forall. intros d Hd. rewrite forallb_forall in A'. specialize (A' d Hd).
  rewrite Bool.andb_true_iff, Z.leb_le, Z.ltb_lt in A'. exact A'.
Qed.
Example C41_witness_key : ff_ok tiny /\ MODBYTES tiny < 65536 /\ rsa_keypair tiny 1 tpub tpriv /\ factor_room tiny 1 (fval tiny (k_p tpriv)) /\ factor_room tiny 1 (fval tiny (k_q tpriv)).
Proof.
  split; [vm_compute; reflexivity|]. split; [vm_compute; reflexivity|]. split; [|split; left; reflexivity].
  constructor; try (apply tiny_wf; vm_compute; reflexivity); try (vm_compute; reflexivity); [vm_compute; split; [discriminate|reflexivity]| |];
    apply smallprime_ok; vm_compute; reflexivity.
Qed.
Example C41_witness_run : let m := i2osp 16000000 16 in
  rsa_encrypt tiny tpub m (repeat 0 17) = Some (i2osp (16000000 ^ 3 mod (65537 * 257)) 16 ++ [0])
  /\ rsa_decrypt tiny tpriv (i2osp (16000000 ^ 3 mod (65537 * 257)) 16) (repeat 9 17) = Some (m ++ [9])
  /\ rsa_encrypt tiny (mk_pub 0 (k_n tpub)) m (repeat 0 16) <> Some (i2osp 1 16).
Proof. vm_compute. repeat split. discriminate. Qed.
(** the tight condition holds e.g. for every factor below 2^(8*MODBYTES*n - 1) *)
Example C57_witness_tight : forall c k p, In (c, k) rsa_tight -> 0 <= p < 2 ^ (8 * MODBYTES c * 4 - 1) -> p * (spare_half c + 1) <= spare_half c * bigR c ^ 4.
Proof.
  intros c k p [E|[E|[]]] Hp; injection E as <- <-.
  - change (spare_half cfg_rsa3072_32) with 128. change (bigR cfg_rsa3072_32 ^ 4) with (2 * 2 ^ (8 * MODBYTES cfg_rsa3072_32 * 4 - 1)). lia.
  - change (spare_half cfg_rsa4096_32) with 512. change (bigR cfg_rsa4096_32 ^ 4) with (2 * 2 ^ (8 * MODBYTES cfg_rsa4096_32 * 4 - 1)). lia.
Qed.
