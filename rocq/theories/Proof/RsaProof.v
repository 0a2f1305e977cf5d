(** RSA encryption and decryption (rsa.rs:431-470): the exponentiations, the CRT
    recombination and the byte conversions. *)
From Verif Require Import Base.Word Model.Big Model.Ff Spec.BigSpec Spec.Bytes Spec.FfSpec Proof.BigVal Proof.BigShift
  Proof.BigMul Proof.BigSqr Proof.BigMisc Proof.BigMod Proof.BigBytes Proof.BigInv Proof.BigMonty Proof.BigInv2m Proof.FfBase Proof.FfLeaf Proof.FfMul Proof.FfRed Proof.FfMod Proof.FfMont.
From Verif Require Import Proof.NumTheory Proof.FfPow Proof.FfInv.
From Coq Require Import Znumtheory.
Open Scope Z_scope.

(** number theory: the CRT result, and e.d = 1 modulo p-1 *)
Lemma crt_unique p q a b : 0 < p -> 0 < q -> Z.gcd p q = 1 -> 0 <= a < p * q -> 0 <= b < p * q -> a mod p = b mod p -> a mod q = b mod q -> a = b.
Proof.
  intros Hp Hq G Ra Rb E1 E2.
  assert (D1 : (p | a - b)) by (apply (mod_div_sub a b p p Hp (Z.divide_refl p) E1)).
  assert (D2 : (q | a - b)) by (apply (mod_div_sub a b q q Hq (Z.divide_refl q) E2)).
  destruct D1 as [x Hx]. assert (D3 : (q | x)). { apply (Z.gauss q p x); [rewrite Z.mul_comm, <- Hx; exact D2|rewrite Z.gcd_comm; exact G]. }
  destruct D3 as [y Hy]. subst x. destruct (Z.eq_dec y 0) as [->|Hne]; [lia|exfalso].
  assert (E : a - b = y * (p * q)) by lia. assert (0 < p * q) by (apply Z.mul_pos_pos; lia).
  assert (y <= -1 \/ 1 <= y) by lia. destruct H0.
  - assert (y * (p * q) <= -1 * (p * q)) by (apply Z.mul_le_mono_nonneg_r; lia). lia.
  - assert (1 * (p * q) <= y * (p * q)) by (apply Z.mul_le_mono_nonneg_r; lia). lia.
Qed.
Lemma pow_ed p m ed : prime p -> 1 <= ed -> ed mod (p - 1) = 1 mod (p - 1) -> m ^ ed mod p = m mod p.
Proof.
  intros Hp He E. pose proof (prime_ge_2 p Hp) as P2. destruct (Z.eq_dec (m mod p) 0) as [Hz|Hnz].
  - rewrite <- (pow_mod_l m) by lia. rewrite Hz, Z.pow_0_l, Z.mod_0_l by lia. reflexivity.
  - assert (D : (p - 1 | ed - 1)). { destruct (Z.eq_dec p 2) as [->|]; [exists (ed - 1); lia|]. apply (mod_div_sub ed 1 (p - 1) (p - 1) ltac:(lia) (Z.divide_refl _) E). }
    destruct D as [t Ht]. assert (0 <= t). { destruct (Z.lt_ge_cases t 0) as [Q|]; [|assumption]. assert (t * (p - 1) <= -1 * (p - 1)) by (apply Z.mul_le_mono_nonneg_r; lia). lia. }
    replace ed with (1 + (p - 1) * t) by lia. rewrite Z.pow_add_r, Z.pow_1_r, Z.pow_mul_r; [|lia|lia|lia|apply Z.mul_nonneg_nonneg; lia].
    rewrite <- Zmult_mod_idemp_r, <- (pow_mod_l (m ^ (p - 1))) by lia.
    replace (m ^ (p - 1) mod p) with 1. { rewrite Z.pow_1_l by lia. rewrite Zmult_mod_idemp_r, Z.mul_1_r. reflexivity. }
    symmetry. apply fermat; assumption.
Qed.

Section F.
Variable c : cfg.
Hypothesis Hff : ff_ok c.
Notation B := (BASEBITS c).
Notation C := (CHUNK c).
Notation N := (NLEN c).
Notation X := (2 ^ BASEBITS c).
Notation V := (val (BASEBITS c)).
Notation R := (bigR c).
Notation FV := (fval c).
Notation cn := (cn c).
Notation nb := (nb c).
Notation tf := (tf c).
Notation lw := (lw c).
Notation pf := (pf c).
Notation SL := (SL c).
Notation MB := (Z.to_nat (MODBYTES c)).
Let Hok := Hok c Hff.
Let HB16 := fB c Hff.
Let HC := fC c Hff.
Let HN2 := fN c Hff.
Let HX := fX c Hff.
Let HXC := fXC c Hff.
Let HRp := R_pos c Hff.
Let HSb := S_big c Hff.
Let HXh := Xh c Hff.
Let HM := cf_M c (cfg_ok_facts c Hok).

Lemma R256 n : R ^ Z.of_nat n = 256 ^ Z.of_nat (n * MB).
Proof.
  unfold bigR. rewrite <- Z.pow_mul_r by lia. change 256 with (2 ^ 8). rewrite <- Z.pow_mul_r by lia. f_equal. rewrite Nat2Z.inj_mul, Z2Nat.id by lia. ring.
Qed.
Lemma R256_1 : R = 256 ^ Z.of_nat MB.
Proof. pose proof (R256 1) as E. rewrite Nat.mul_1_l in E. change (Z.of_nat 1) with 1 in E. rewrite Z.pow_1_r in E. exact E. Qed.

Lemma frombytes_ok b : bytes b -> forall n, (n * MB <= length b)%nat ->
  exists r, ff_frombytes c n b = Some r /\ length r = n /\ Forall cn r /\ FV r = os2ip (firstn (n * MB) b).
Proof.
  intros Hb. induction n as [|n IH]; intros L.
  - exists []. repeat split; constructor.
  - destruct (IH ltac:(lia)) as [t [T1 [T2 [T3 T4]]]]. cbn [ff_frombytes].
    destruct (frombytearray_spec c Hok b (n * MB) Hb ltac:(lia)) as [x [X1 [X2 X3]]]. rewrite X1. cbn [bind]. rewrite T1. cbn [bind].
    rewrite Nat.min_l in X3 by lia. exists (x :: t). split; [reflexivity|]. split; [cbn; lia|].
    set (xs := firstn MB (skipn (n * MB) b)) in *. assert (Lx : length xs = MB) by (unfold xs; rewrite firstn_length, skipn_length; lia).
    assert (Bx : bytes xs) by (apply bytes_firstn; unfold bytes in *; apply Forall_skipn; exact Hb).
    pose proof (os2ip_range xs Bx) as Rx. rewrite Lx, <- R256_1 in Rx.
    split; [constructor; [split; [exact X2|rewrite X3; lia]|exact T3]|].
    cbn [fval]. unfold bval. rewrite X3, T4.
    replace (firstn (S n * MB) b) with (firstn (n * MB) b ++ xs).
    + rewrite os2ip_app, Lx, <- R256_1. ring.
    + unfold xs. rewrite <- (firstn_skipn (n * MB) b) at 3. rewrite firstn_app, firstn_length_le by lia. rewrite (firstn_all2 (firstn _ _)) by (rewrite firstn_length; lia). f_equal. f_equal. lia.
Qed.
Lemma i2osp_split a x m n : 0 <= x < 256 ^ Z.of_nat n -> 0 <= a -> a < 256 ^ Z.of_nat m -> i2osp (x + 256 ^ Z.of_nat n * a) (m + n) = i2osp a m ++ i2osp x n.
Proof.
  intros Hx Ha Ha'. apply os2ip_inj.
  - apply i2osp_bytes.
  - unfold bytes. apply Forall_app; split; apply i2osp_bytes.
  - rewrite app_length, !i2osp_length. reflexivity.
  - rewrite os2ip_app, !os2ip_i2osp, i2osp_length. rewrite !(Z.mod_small) ; [ring|lia|lia|]. rewrite Nat2Z.inj_add, Z.pow_add_r by lia.
    set (E := 256 ^ Z.of_nat n) in *. assert (E * a <= E * (256 ^ Z.of_nat m - 1)) by (apply Z.mul_le_mono_nonneg_l; lia).
    assert (0 <= E * a) by (apply Z.mul_nonneg_nonneg; lia). lia.
Qed.
Lemma tobytes_ok : forall f b, Forall cn f -> (length f * MB <= length b)%nat -> 
  ff_tobytes c f b = Some (i2osp (FV f) (length f * MB) ++ skipn (length f * MB) b).
Proof.
  unfold ff_tobytes. induction f as [|x t IH]; intros b Hf L; [reflexivity|].
  apply Forall_cons_iff in Hf. destruct Hf as [Hx Ht]. cbn [ff_tobytes_loop length] in *.
  rewrite (tobytearray_spec c Hok x b (length t * MB) (proj1 Hx)) by lia. cbn [bind].
  rewrite IH; [|exact Ht|rewrite !app_length, firstn_length, skipn_length, i2osp_length; lia].
  rewrite skipn_app, firstn_length, skipn_all2 by (rewrite firstn_length; lia). replace (length t * MB - Nat.min (length t * MB) (length b))%nat with 0%nat by lia.
  cbn [app skipn]. pose proof (cn_range c Hff t Ht) as Rt. rewrite R256 in Rt. destruct Hx as [[Lx Wx] Hx]. pose proof (canon_val B x ltac:(lia) Wx) as Rx.
  rewrite R256_1 in Hx.
  cbn [fval]. unfold bval. rewrite R256_1. replace (S (length t) * MB)%nat with (length t * MB + MB)%nat by lia. rewrite i2osp_split, <- app_assoc by lia. reflexivity.
Qed.

(** ** encryption *)
Lemma encrypt_ok k pb f g : (1 <= k <= 3)%nat -> MODBYTES c < 65536 -> length (k_n pb) = (2 ^ k)%nat -> Forall cn (k_n pb) -> FV (k_n pb) mod 2 = 1 ->
  1 <= k_e pb < 2 ^ CHUNK c -> bytes f -> (2 ^ k * MB <= length f)%nat -> (2 ^ k * MB <= length g)%nat ->
  rsa_encrypt c pb f g = Some (i2osp (os2ip (firstn (2 ^ k * MB) f) ^ k_e pb mod FV (k_n pb)) (2 ^ k * MB) ++ skipn (2 ^ k * MB) g).
Proof.
  intros Hk HM6 Ln Hn Odd He Hf Lf Lg. unfold rsa_encrypt. rewrite Ln.
  destruct (frombytes_ok f Hf (2 ^ k) Lf) as [r [R1 [R2 [R3 R4]]]]. rewrite R1. cbn [bind].
  destruct (ffinv_ok c Hff (k_n pb) k ltac:(lia) Ln Hn HM6 Odd) as [nd [N1 [N2 [N3 N4]]]].
  destruct (power_ok c Hff (k_n pb) nd k ltac:(lia) Ln N2 Hn N3 Odd N4 r (k_e pb) N1 ltac:(lia) R2 R3 He) as [s [S1 [S2 [S3 S4]]]].
  rewrite S1. cbn [bind]. rewrite tobytes_ok by (auto; lia). rewrite S2, S4, R4. reflexivity.
Qed.
Lemma encrypt0_ok k pb f g : (1 <= k <= 3)%nat -> MODBYTES c < 65536 -> length (k_n pb) = (2 ^ k)%nat -> Forall cn (k_n pb) -> FV (k_n pb) mod 2 = 1 ->
  k_e pb = 0 -> bytes f -> (2 ^ k * MB <= length f)%nat -> (2 ^ k * MB <= length g)%nat ->
  exists s, rsa_encrypt c pb f g = Some (i2osp s (2 ^ k * MB) ++ skipn (2 ^ k * MB) g) /\ 0 <= s < FV (k_n pb)
    /\ (s * 256 ^ Z.of_nat (2 ^ k * MB)) mod FV (k_n pb) = os2ip (firstn (2 ^ k * MB) f) mod FV (k_n pb).
Proof.
  intros Hk HM6 Ln Hn Odd He Hf Lf Lg. unfold rsa_encrypt. rewrite Ln, He.
  destruct (frombytes_ok f Hf (2 ^ k) Lf) as [r [R1 [R2 [R3 R4]]]]. rewrite R1. cbn [bind].
  destruct (ffinv_ok c Hff (k_n pb) k ltac:(lia) Ln Hn HM6 Odd) as [nd [N1 [N2 [N3 N4]]]].
  destruct (power0_ok c Hff (k_n pb) nd k ltac:(lia) Ln N2 Hn N3 Odd N4 r N1 ltac:(lia) R2 R3) as [s [S1 [S2 [S3 [S4 S5]]]]].
  rewrite S1. cbn [bind]. rewrite tobytes_ok by (auto; lia). exists (FV s). rewrite S2. split; [reflexivity|]. split; [exact S4|].
  rewrite <- R4, <- S5, <- R256. unfold frad. replace (2 ^ k =? 1)%nat with false; [reflexivity|]. symmetry. apply Nat.eqb_neq.
  destruct k as [|k']; [lia|]. rewrite pow2S. pose proof (pow2pos k'). lia.
Qed.

(** ** decryption *)
Section Dec.
Variable k : nat.
Hypothesis Hk : (k <= 2)%nat.
Hypothesis HM6 : MODBYTES c < 65536.
Notation n := (2 ^ k)%nat.
Variable pv : rsa_priv.
Notation p := (k_p pv).
Notation q := (k_q pv).
Hypothesis Lp : length p = n.
Hypothesis Lq : length q = n.
Hypothesis Ldp : length (k_dp pv) = n.
Hypothesis Ldq : length (k_dq pv) = n.
Hypothesis Lc : length (k_c pv) = n.
Hypothesis Hp : Forall cn p.
Hypothesis Hq : Forall cn q.
Hypothesis Hdp : Forall cn (k_dp pv).
Hypothesis Hdq : Forall cn (k_dq pv).
Hypothesis Hc : Forall cn (k_c pv).
Hypothesis Op : FV p mod 2 = 1.
Hypothesis Oq : FV q mod 2 = 1.
Hypothesis Rmp : room c p k (8 * MODBYTES c * Z.of_nat n).
Hypothesis Rmq : room c q k (8 * MODBYTES c * Z.of_nat n).
Hypothesis Prm : k <> O \/ (prime (FV p) /\ prime (FV q)).

Lemma decrypt_ok g f : bytes g -> (2 * n * MB <= length g)%nat -> (2 * n * MB <= length f)%nat ->
  let G := os2ip (firstn (2 * n * MB) g) in
  let jp := G ^ FV (k_dp pv) mod FV p in let jq := G ^ FV (k_dq pv) mod FV q in
  rsa_decrypt c pv g f = Some (i2osp (jp + FV p * ((FV (k_c pv) * (jq - jp)) mod FV q)) (2 * n * MB) ++ skipn (2 * n * MB) f).
Proof.
  intros Hg Lg Lf. cbv zeta. set (G := os2ip _). unfold rsa_decrypt. rewrite Lp.
  assert (Hn : (1 <= n)%nat) by apply pow2pos. pose proof HXh as [_ [Xe _]].
  pose proof (cn_range c Hff p Hp) as Rp0. rewrite Lp in Rp0. pose proof (cn_range c Hff q Hq) as Rq0. rewrite Lq in Rq0.
  assert (Pp : 0 < FV p). { destruct (Z.eq_dec (FV p) 0) as [E|]; [rewrite E in Op; discriminate|lia]. }
  assert (Pq : 0 < FV q). { destruct (Z.eq_dec (FV q) 0) as [E|]; [rewrite E in Oq; discriminate|lia]. }
  destruct (frombytes_ok g Hg (2 * n) Lg) as [r [R1 [R2 [R3 R4]]]]. rewrite R1. cbn [bind]. fold G in R4.
  assert (Tr : tf 1 r) by (apply (cn_tf c Hff); [apply len_ne; lia|exact R3]).
  assert (Np : p <> []) by (apply len_ne; lia). assert (Nq : q <> []) by (apply len_ne; lia).
  destruct (dmod_ok c Hff r p 1) as [jp [J1 [J2 [J3 J4]]]]; auto; try lia. rewrite J1. cbn [bind].
  destruct (dmod_ok c Hff r q 1) as [jq [K1 [K2 [K3 K4]]]]; auto; try lia. rewrite K1. cbn [bind].
  destruct (ffinv_ok c Hff p k ltac:(lia) Lp Hp HM6 Op) as [np [A1 [A2 [A3 A4]]]].
  destruct (ffinv_ok c Hff q k ltac:(lia) Lq Hq HM6 Oq) as [nq [B1 [B2 [B3 B4]]]].
  destruct (skpow_ok c Hff p np k ltac:(lia) Lp A2 Hp A3 Op A4 jp (k_dp pv) A1 ltac:(lia) J3 Ldp Hdp Rmp) as [ep [E1 [E2 [E3 E4]]]]; [tauto|].
  destruct (skpow_ok c Hff q nq k ltac:(lia) Lq B2 Hq B3 Oq B4 jq (k_dq pv) B1 ltac:(lia) K3 Ldq Hdq Rmq) as [eq [F1 [F2 [F3 F4]]]]; [tauto|].
  pose proof (cn_range c Hff _ Hdp) as Rdp. pose proof (cn_range c Hff _ Hdq) as Rdq. pose proof (cn_range c Hff _ Hc) as Rc. rewrite Lc in Rc.
  rewrite E1. cbn [bind]. rewrite F1. cbn [bind]. rewrite J4, R4, pow_mod_l in E4 by lia. rewrite K4, R4, pow_mod_l in F4 by lia.
  rewrite <- E4, <- F4.
  pose proof (Z.mod_pos_bound (G ^ FV (k_dp pv)) (FV p) Pp) as Bp. rewrite <- E4 in Bp. pose proof (Z.mod_pos_bound (G ^ FV (k_dq pv)) (FV q) Pq) as Bq. rewrite <- F4 in Bq.
  clear E4 F4 E1 F1 J1 K1 R1 J2 J3 J4 K2 K3 K4 A1 A2 A3 A4 B1 B2 B3 B4 Rmp Rmq Tr R2 R3 R4.
  assert (Tep : tf 1 ep) by (apply (cn_tf c Hff); [apply len_ne; lia|exact E3]).
  destruct (rmod_ok c Hff 1 ep q Tep ltac:(pose proof (S_big c Hff); lia) Hq ltac:(lia) Pq) as [j [J1 [J2 [J3 J4]]]]. rewrite J1. cbn [bind]. clear J1.
  rewrite (ffcomp_cn c Hff j eq J3 F3 ltac:(lia)), (cmpz_gt c Hff). pose proof (Z.mod_pos_bound (FV ep) (FV q) Pq) as Bj. rewrite <- J4 in Bj.
  assert (HR : 0 < R ^ Z.of_nat n) by (apply (Rp c Hff)).
  assert (Sa : exists s, (if FV eq <? FV j then ff_add c eq q else Some eq) = Some s /\ length s = n /\ Forall (lw 0 (2 * (X - 1))) s
     /\ FV s = FV eq + (if FV eq <? FV j then FV q else 0)).
  { destruct (FV eq <? FV j).
    - destruct (ffadd_ok c Hff 0 (X - 1) 0 (X - 1) eq q (cn_flw c eq F3) (cn_flw c q Hq) ltac:(lia)) as [s [S1 [S2 [S3 S4]]]]; [lia|lia|].
      exists s. rewrite S1. split; [reflexivity|]. split; [lia|]. split; [|exact S4]. eapply (flw_mono c); [exact S3|lia|lia].
    - exists eq. split; [reflexivity|]. split; [lia|]. split; [|lia]. eapply (flw_mono c); [exact (cn_flw c eq F3)|lia|lia]. }
  destruct Sa as [s [S1 [S2 [S3 S4]]]]. rewrite S1. cbn [bind]. clear S1.
  destruct (ffsub_ok c Hff 0 (2 * (X - 1)) 0 (X - 1) s j S3 (cn_flw c j J3) ltac:(lia)) as [u [U1 [U2 [U3 U4]]]]; [lia|lia|]. rewrite U1. cbn [bind]. clear U1 S3.
  assert (Bu : 0 <= FV u < FV q). { rewrite U4, S4. destruct (FV eq <? FV j) eqn:E; [apply Z.ltb_lt in E|apply Z.ltb_ge in E]; lia. }
  assert (Mu : FV u mod FV q = (FV eq - FV ep) mod FV q).
  { rewrite U4, S4. destruct (FV eq <? FV j); rewrite J4.
    - rewrite Zminus_mod_idemp_r. replace (FV eq + FV q - FV ep) with (FV eq - FV ep + 1 * FV q) by lia. apply Z.mod_add. lia.
    - rewrite Z.add_0_r. apply Zminus_mod_idemp_r. }
  destruct (rnorm_ok c Hff u 1) as [u' [W1 [W2 [W3 W4]]]]; [apply len_ne; lia|eapply (flw_lim c); [exact U3|unfold FfBase.lim; lia|unfold FfBase.lim; lia]|rewrite U2, S2; lia|].
  unfold ff_norm. rewrite W1. cbn [bind]. clear W1 U3. unfold ff_mul. rewrite Lc, Nat.log2_pow2 by lia.
  assert (Tc : tf 1 (k_c pv)) by (apply (cn_tf c Hff); [apply len_ne; lia|exact Hc]).
  assert (Tp : tf 1 p) by (apply (cn_tf c Hff); [apply len_ne; lia|exact Hp]).
  pose proof (S_big c Hff) as SB.
  assert (KK : 2 * ((1 + Z.of_nat k) * (1 + Z.of_nat k)) <= 5 * SL).
  { assert ((1 + Z.of_nat k) * (1 + Z.of_nat k) <= 3 * 3) by (apply Z.mul_le_mono_nonneg; lia). lia. }
  destruct (karmul_ok c Hff k (k_c pv) u' 1 1 Lc ltac:(lia) Tc W3) as [t [T1 [T2 [T3 T4]]]]; [lia|lia|lia|lia|exact KK|]. rewrite T1. cbn [bind]. clear T1.
  change (1 * 1) with 1 in T3.
  destruct (dmod_ok c Hff t q 1) as [v [V1 [V2 [V3 V4]]]]; [rewrite T2, Lq, pow2S; lia|exact Nq|exact T3|lia|exact Hq|exact Pq|]. rewrite V1. cbn [bind]. clear V1.
  assert (Tv : tf 1 v) by (apply (cn_tf c Hff); [apply len_ne; lia|exact V3]).
  rewrite V2, Lq, Nat.log2_pow2 by lia.
  destruct (karmul_ok c Hff k v p 1 1 ltac:(lia) Lp Tv Tp) as [w [X1 [X2 [X3 X4]]]]; [lia|lia|lia|lia|exact KK|]. rewrite X1. cbn [bind]. clear X1.
  change (1 * 1) with 1 in X3. apply (tf_cns c Hff) in X3.
  assert (Ev : FV v = (FV (k_c pv) * (FV eq - FV ep)) mod FV q).
  { rewrite V4, T4, W4, <- (Zmult_mod_idemp_r (FV eq - FV ep)), <- Mu, Zmult_mod_idemp_r. reflexivity. }
  rewrite <- Ev. pose proof (Z.mod_pos_bound (FV (k_c pv) * (FV eq - FV ep)) (FV q) Pq) as Bv. rewrite <- Ev in Bv.
  destruct (zero_cn c Hff (length ep)) as [Zc [Zv Zl]].
  assert (Hd : Forall cn (dscopy c ep)) by (unfold dscopy; apply Forall_app; auto).
  assert (Ld : length (dscopy c ep) = (2 * n)%nat) by (unfold dscopy; rewrite app_length, Zl; lia).
  assert (Vd : FV (dscopy c ep) = FV ep) by (unfold dscopy; rewrite (FV_app c Hff), Zv; lia).
  rewrite pow2S in X2.
  destruct (ffadd_ok c Hff 0 (X - 1) 0 (X - 1) (dscopy c ep) w (cn_flw c _ Hd) (cn_flw c w X3) ltac:(lia)) as [y [Y1 [Y2 [Y3 Y4]]]]; [lia|lia|]. rewrite Y1. cbn [bind]. clear Y1.
  assert (Vy : FV y = FV ep + FV p * FV v) by (rewrite Y4, Vd, X4; lia).
  assert (By : 0 <= FV y < R ^ Z.of_nat n * R ^ Z.of_nat n).
  { rewrite Vy. assert (0 <= FV p * FV v) by (apply Z.mul_nonneg_nonneg; lia). split; [lia|].
    assert (FV p * (FV v + 1) <= FV p * FV q) by (apply Z.mul_le_mono_nonneg_l; lia).
    assert (FV p * FV q < R ^ Z.of_nat n * R ^ Z.of_nat n) by (apply Z.mul_lt_mono_nonneg; lia). lia. }
  destruct (rnorm_ok c Hff y 1) as [z [Z1 [Z2 [Z3 Z4]]]]; [apply len_ne; lia|eapply (flw_lim c); [exact Y3|unfold FfBase.lim; lia|unfold FfBase.lim; lia]| |].
  { rewrite Y2, Ld. replace (Z.of_nat (2 * n)) with (Z.of_nat n + Z.of_nat n) by lia. rewrite Z.pow_add_r by lia. lia. }
  rewrite Z1. cbn [bind]. apply (tf_cns c Hff) in Z3. rewrite tobytes_ok; [|exact Z3|rewrite Z2, Y2, Ld; exact Lf].
  rewrite Z2, Y2, Ld, Z4, Vy. reflexivity.
Qed.
End Dec.
End F.
