(** expand_message_xmd and hash_to_field compute the draft's functions. *)
From Verif Require Import Base.Word Base.Arr Model.Big Model.Roms Model.Sha2 Model.Fp Model.Fp2 Model.HashToCurve Spec.Bytes Spec.Sha2Spec Spec.XmdSpec
  Spec.BigSpec Spec.RomSpec Spec.FpSpec Spec.TowerRep Proof.Sha2Block Proof.Sha2Stream Proof.BigVal Proof.BigBytes Proof.BigMod Proof.FpBase Proof.FpOps Proof.TowerInv.
From Coq Require Import Lia.
From Coq Require String.
Import String.StringSyntax.

Lemma strxor_xorl a : forall b, xorl a b = strxor a b.
Proof. induction a as [|x a IH]; intros [|y b]; cbn; try reflexivity. f_equal. apply IH. Qed.
Lemma over_text : OVERSIZED_DST = text "H2C-OVERSIZE-DST-".
Proof. vm_compute. reflexivity. Qed.
Lemma byte_i2osp v : 0 <= v < 256 -> i2osp v 1 = [v].
Proof. intros H. cbn [i2osp app]. rewrite Z.mod_small by lia. reflexivity. Qed.

Lemma val_zeros : forall B l, 0 <= B -> Forall (fun d => 0 <= d < 2 ^ B) l -> val B l = 0 -> l = repeat 0 (length l).
Proof.
  intros B l HB H. induction H as [|d l Hd H IH]; intros E; [reflexivity|]. cbn [val length repeat] in *. assert (0 < 2 ^ B) by (apply Z.pow_pos_nonneg; lia).
  assert (V0 : 0 <= val B l). { clear -H HB. induction H as [|x t Hx Ht IH]; cbn [val]; [lia|]. assert (0 <= 2 ^ B * val B t) by (apply Z.mul_nonneg_nonneg; [apply Z.pow_nonneg; lia|exact IH]). lia. }
  assert (0 <= 2 ^ B * val B l) by (apply Z.mul_nonneg_nonneg; lia). assert (d = 0) by lia. subst d. f_equal. apply IH. assert (Q : 2 ^ B * val B l = 0) by lia. apply Z.mul_eq_0 in Q. destruct Q as [Q|Q]; [lia|exact Q].
Qed.
Section X.
Variable C : sha.
Variable P : sha_par.
Hypothesis HM : matches C P.
Variable bd : build.
Notation wb := (wbytes P).
Let H := SHA2 P.
Lemma room_fits n m : hash_room bd P m -> Z.of_nat n <= m -> fits P bd (Z.of_nat n + 32 * Z.of_nat wb).
Proof. intros R L. pose proof (Wwb C P HM) as E. destruct R as [-> |R]; [exact I|]. destruct bd; [|exact I]. unfold fits. lia. Qed.
Lemma hash_is m n : bytes m -> hash_room bd P n -> Z.of_nat (length m) <= n -> h2c_hash C bd m = Some (SHA2 P m).
Proof.
  intros Hm R L. pose proof (room_fits (length m) n R L) as F. unfold h2c_hash.
  assert (I0 : inv P [] (h_init C (h_new C))).
  { apply (init_ok C P HM); unfold h_new, h_init; cbn [h_w].
    - rewrite app_length, !repeat_length, skipn_length, repeat_length. rewrite (mR _ _ HM). pose proof (mR3 _ _ HM). lia.
    - apply Forall_app. split; apply Forall_forall; intros x Hx.
      + apply repeat_spec in Hx. subst x. apply (zero_inw C P HM).
      + assert (Hy : In x (repeat 0 (sR C))) by (rewrite <- (firstn_skipn 64 (repeat 0 (sR C))); apply in_or_app; right; exact Hx). apply repeat_spec in Hy. subst x. apply (zero_inw C P HM). }
  destruct (process_array_ok C P HM bd m [] _ I0 Hm) as [s [E1 I1]].
  { eapply fits_le; [|exact F]. cbn [length]. pose proof (wb_pos C P HM). lia. }
  rewrite E1. cbn [bind app] in *. destruct (hash_ok C P HM bd m s I1 F) as [s' [E2 _]]. rewrite E2. reflexivity.
Qed.

Lemma out_le : (1 <= outlen P <= 64)%nat.
Proof. pose proof (mO2 _ _ HM). unfold wbytes in *. destruct (mW2 _ _ HM) as [E|E]; rewrite E in *; change (Z.to_nat (32 / 8)) with 4%nat in *; change (Z.to_nat (64 / 8)) with 8%nat in *; lia. Qed.
Lemma H_len m : length (H m) = outlen P. Proof. apply (SHA2_length C P HM). Qed.
Lemma H_bytes m : bytes (H m). Proof. apply (SHA2_bytes P). Qed.
Lemma strxor_bytes a b : bytes a -> bytes b -> bytes (strxor a b).
Proof. intros Ha Hb. rewrite <- strxor_xorl. apply xorl_bytes; assumption. Qed.
Lemma blk : BLOCK C = Sha2Spec.B P.
Proof. unfold BLOCK, Sha2Spec.B, wbytes. rewrite (mW _ _ HM). destruct (mW2 _ _ HM) as [-> | ->]; reflexivity. Qed.
Lemma blk_ge : (64 <= Sha2Spec.B P)%nat /\ (outlen P <= Sha2Spec.B P)%nat.
Proof. pose proof (mO2 _ _ HM) as O. unfold Sha2Spec.B, wbytes in *. destruct (mW2 _ _ HM) as [E|E]; rewrite E in *; change (Z.to_nat (32 / 8)) with 4%nat in *; change (Z.to_nat (64 / 8)) with 8%nat in *; lia. Qed.

(** room for every message hashed: block, message, 3 bytes and the tag; or prefix and long tag *)
Variable mlen dlen : nat.
Hypothesis R1 : hash_room bd P (Z.of_nat (Sha2Spec.B P) + Z.of_nat mlen + 259).
Hypothesis R2 : hash_room bd P (17 + Z.of_nat dlen).

Lemma dp_ok dst : length dst = dlen -> bytes dst -> dst_prime C bd dst = Some (DST_prime H dst) /\ bytes (DST_prime H dst) /\ (length (DST_prime H dst) <= 256)%nat.
Proof.
  intros L Hd. pose proof out_le as O. unfold dst_prime, DST_prime. destruct (Z.ltb_spec 255 (Z.of_nat (length dst))) as [G|G].
  - destruct (Nat.leb_spec (length dst) 255) as [X|X]; [lia|]. rewrite over_text.
    assert (Hb : bytes (text "H2C-OVERSIZE-DST-" ++ dst)).
    { apply Forall_app. split; [|exact Hd]. rewrite <- over_text. unfold OVERSIZED_DST, is_byte. repeat (apply Forall_cons; [lia|]). constructor. }
    rewrite (hash_is _ _ Hb R2) by (rewrite app_length; change (length (text "H2C-OVERSIZE-DST-")) with 17%nat; lia). cbn [bind].
    fold H. rewrite H_len. unfold hlen. rewrite (mO _ _ HM). rewrite byte_i2osp by lia. unfold wrapu. rewrite Z.mod_small by (change (2 ^ 8) with 256; lia).
    split; [reflexivity|]. split; [apply Forall_app; split; [apply H_bytes|constructor; [unfold is_byte; lia|constructor]]|]. rewrite app_length, H_len. cbn [length]. lia.
  - destruct (Nat.leb_spec (length dst) 255) as [X|X]; [|lia]. rewrite byte_i2osp by lia. unfold wrapu. rewrite Z.mod_small by (change (2 ^ 8) with 256; lia).
    split; [reflexivity|]. split; [apply Forall_app; split; [exact Hd|constructor; [unfold is_byte; lia|constructor]]|]. rewrite app_length. cbn [length]. lia.
Qed.
Lemma xb_len b0 dp i : length (xmd_b H b0 dp i) = outlen P.
Proof. destruct i; apply H_len. Qed.
Lemma xb_bytes b0 dp i : bytes (xmd_b H b0 dp i).
Proof. destruct i; apply H_bytes. Qed.
Lemma strxor_len a b : length (strxor a b) = Nat.min (length a) (length b).
Proof. unfold strxor. rewrite map_length, combine_length. reflexivity. Qed.
Lemma loop_ok b0 dp : length b0 = outlen P -> bytes b0 -> bytes dp -> (length dp <= 256)%nat -> forall n k, (k + 1 + n <= 255)%nat ->
  xmd_loop C bd n (Z.of_nat k + 2) b0 (xmd_b H b0 dp k) dp = Some (concat (map (xmd_b H b0 dp) (seq (S k) n))).
Proof.
  intros L0 B0 Bd Ld. induction n as [|n IH]; intros k Hk; [reflexivity|].
  cbn [xmd_loop]. rewrite xb_len, L0, Nat.ltb_irrefl.
  assert (E : xorl b0 (xmd_b H b0 dp k) ++ [wrapu 8 (Z.of_nat k + 2)] ++ dp = strxor b0 (xmd_b H b0 dp k) ++ i2osp (Z.of_nat (S (S k))) 1 ++ dp).
  { rewrite strxor_xorl, byte_i2osp by lia. unfold wrapu. rewrite Z.mod_small by (change (2 ^ 8) with 256; lia). do 3 f_equal. lia. }
  rewrite E. pose proof out_le as O. pose proof blk_ge as BG.
  rewrite (hash_is _ (Z.of_nat (Sha2Spec.B P) + Z.of_nat mlen + 259)); [|apply Forall_app; split; [apply strxor_bytes; [exact B0|apply xb_bytes]|apply Forall_app; split; [apply i2osp_bytes|exact Bd]]|exact R1|].
  2:{ rewrite !app_length, strxor_len, xb_len, L0, i2osp_length. lia. }
  cbn [bind]. change (SHA2 P (strxor b0 (xmd_b H b0 dp k) ++ i2osp (Z.of_nat (S (S k))) 1 ++ dp)) with (xmd_b H b0 dp (S k)).
  replace (Z.of_nat k + 2 + 1) with (Z.of_nat (S k) + 2) by lia. rewrite IH by lia. cbn [bind seq map concat]. reflexivity.
Qed.
Lemma concat_len (f : nat -> list Z) m l : (forall i, length (f i) = m) -> length (concat (map f l)) = (length l * m)%nat.
Proof. intros E. induction l as [|x l IH]; [reflexivity|]. cbn [map concat length]. rewrite app_length, E, IH. lia. Qed.
Lemma expand_ok msg len dst : length msg = mlen -> length dst = dlen -> bytes msg -> bytes dst -> Z.of_nat len + Z.of_nat (outlen P) < 2 ^ 64 ->
  expand_message_xmd C bd msg (Z.of_nat len) dst = Some (match XMD H (outlen P) (Sha2Spec.B P) msg len dst with Some u => Ok u | None => Err HashToFieldError end).
Proof.
  intros Lm Ld Hm Hd R. pose proof out_le as O. unfold expand_message_xmd, hlen. rewrite (mO _ _ HM). unfold usz. destruct (Z.ltb_spec (Z.of_nat len + Z.of_nat (outlen P)) (2 ^ 64)) as [G|G]; [|lia]. cbn [bind].
  destruct (Z.ltb_spec (Z.of_nat len + Z.of_nat (outlen P)) 1) as [G1|G1]; [lia|]. cbn [bind].
  assert (EL : (Z.of_nat len + Z.of_nat (outlen P) - 1) / Z.of_nat (outlen P) = Z.of_nat (ell (outlen P) len)).
  { unfold ell. rewrite Nat2Z.inj_div. f_equal. lia. }
  cbv zeta. rewrite EL. unfold XMD. destruct (Z.ltb_spec 255 (Z.of_nat (ell (outlen P) len))) as [Q|Q].
  - destruct (Nat.leb_spec (ell (outlen P) len) 255); [lia|]. reflexivity.
  - destruct (Nat.leb_spec (ell (outlen P) len) 255) as [Q'|]; [|lia]. clear Q.
    destruct (dp_ok dst Ld Hd) as [E1 [Bd Ldp]]. rewrite E1. cbn [bind].
    assert (LB : (len <= ell (outlen P) len * outlen P)%nat).
    { unfold ell. pose proof (Nat.div_mod (len + outlen P - 1) (outlen P) ltac:(lia)) as D. pose proof (Nat.mod_upper_bound (len + outlen P - 1) (outlen P) ltac:(lia)). rewrite Nat.mul_comm. lia. }
    assert (Llen : Z.of_nat len < 65536). { assert (ell (outlen P) len * outlen P <= 255 * 64)%nat by (apply Nat.mul_le_mono; lia). lia. }
    assert (E2 : [wrapu 16 (Z.of_nat len) / 256; wrapu 16 (Z.of_nat len) mod 256] = i2osp (Z.of_nat len) 2).
    { cbn [i2osp app]. unfold wrapu. change (2 ^ 16) with 65536. rewrite (Z.mod_small _ 65536) by lia. rewrite (Z.mod_small (_ / 256)); [reflexivity|]. split; [apply Z.div_pos; lia|apply Z.div_lt_upper_bound; lia]. }
    rewrite E2, blk. change [0] with (i2osp 0 1).
    rewrite (hash_is _ (Z.of_nat (Sha2Spec.B P) + Z.of_nat mlen + 259)); [| |exact R1|].
    2:{ apply Forall_app. split; [apply Forall_forall; intros x Hx; apply repeat_spec in Hx; subst x; unfold is_byte; lia|]. apply Forall_app. split; [exact Hm|]. apply Forall_app; split; [apply i2osp_bytes|]. apply Forall_app; split; [apply i2osp_bytes|exact Bd]. }
    2:{ rewrite !app_length, repeat_length, !i2osp_length. lia. }
    cbn [bind]. fold (H (repeat 0 (Sha2Spec.B P) ++ msg ++ i2osp (Z.of_nat len) 2 ++ i2osp 0 1 ++ DST_prime H dst)).
    change (H (repeat 0 (Sha2Spec.B P) ++ msg ++ i2osp (Z.of_nat len) 2 ++ i2osp 0 1 ++ DST_prime H dst)) with (xmd_b0 H (Sha2Spec.B P) msg len dst).
    assert (L0 : length (xmd_b0 H (Sha2Spec.B P) msg len dst) = outlen P) by apply H_len. assert (B0 : bytes (xmd_b0 H (Sha2Spec.B P) msg len dst)) by apply H_bytes.
    unfold uniform_bytes. set (b0 := xmd_b0 H (Sha2Spec.B P) msg len dst) in *. set (dp := DST_prime H dst) in *.
    change [1] with (i2osp 1 1).
    rewrite (hash_is _ (Z.of_nat (Sha2Spec.B P) + Z.of_nat mlen + 259)); [| |exact R1|].
    2:{ apply Forall_app. split; [exact B0|]. apply Forall_app; split; [apply i2osp_bytes|exact Bd]. }
    2:{ rewrite !app_length, L0, i2osp_length. pose proof blk_ge. lia. }
    cbn [bind]. change (SHA2 P (b0 ++ i2osp 1 1 ++ dp)) with (xmd_b H b0 dp 0). rewrite Nat2Z.id. change 2 with (Z.of_nat 0 + 2).
    rewrite (loop_ok b0 dp L0 B0 Bd Ldp) by lia. cbn [bind].
    change (xmd_b H b0 dp 0 ++ concat (map (xmd_b H b0 dp) (seq 1 (ell (outlen P) len - 1)))) with (concat (map (xmd_b H b0 dp) (seq 0 (S (ell (outlen P) len - 1))))).
    destruct (Z.ltb_spec (Z.of_nat (length (concat (map (xmd_b H b0 dp) (seq 0 (S (ell (outlen P) len - 1))))))) (Z.of_nat len)) as [U|U].
    + exfalso. rewrite (concat_len _ (outlen P)), seq_length in U by (intros; apply xb_len). assert (ell (outlen P) len * outlen P <= S (ell (outlen P) len - 1) * outlen P)%nat by (apply Nat.mul_le_mono_r; lia). lia.
    + rewrite Nat2Z.id. destruct (Nat.eq_dec (ell (outlen P) len) 0) as [Z0|NZ].
      * assert (len = 0%nat) by (rewrite Z0 in LB; lia). subst len. reflexivity.
      * replace (S (ell (outlen P) len - 1)) with (ell (outlen P) len) by lia. reflexivity.
Qed.
Lemma uniform_len msg len dst u : XMD H (outlen P) (Sha2Spec.B P) msg len dst = Some u -> length u = len /\ bytes u.
Proof.
  unfold XMD. destruct (Nat.leb_spec (ell (outlen P) len) 255); [|discriminate]. intros E. injection E as <-. pose proof out_le as O.
  assert (LB : (len <= ell (outlen P) len * outlen P)%nat).
  { unfold ell. pose proof (Nat.div_mod (len + outlen P - 1) (outlen P) ltac:(lia)) as D. pose proof (Nat.mod_upper_bound (len + outlen P - 1) (outlen P) ltac:(lia)). rewrite Nat.mul_comm. lia. }
  unfold uniform_bytes. split.
  - rewrite firstn_length, (concat_len _ (outlen P)), seq_length by (intros; apply xb_len). lia.
  - apply bytes_firstn. generalize (seq 0 (ell (outlen P) len)). intros l. induction l as [|x l IH]; [constructor|]. cbn [map concat]. apply Forall_app. split; [apply xb_bytes|exact IH].
Qed.

Variable r : rom.
Hypothesis Hf : fp_ok r.
Hypothesis Hns : special r = false.
Hypothesis HM32 : 32 <= MODBYTES (r_cfg r).
Lemma elem_ok u off : bytes u -> (off + 64 <= length u)%nat ->
  exists e, elem_big r u (Z.of_nat off) = Some e /\ big_wf (r_cfg r) e /\ bval (r_cfg r) e = os2ip (firstn 64 (skipn off u)) mod pmod r.
Proof.
  intros Hu L. unfold elem_big, slice64, H2C_L. destruct (Z.ltb_spec (Z.of_nat (length u)) (Z.of_nat off + 64)) as [G|G]; [lia|]. cbn [bind]. rewrite Nat2Z.id.
  pose proof (ff_ok _ (fp_ok_facts r Hf)) as Hok. assert (Hb : bytes (firstn 64 (skipn off u))) by (apply bytes_firstn; rewrite <- (firstn_skipn off u) in Hu; apply Forall_app in Hu; exact (proj2 Hu)).
  destruct (dfrombytes_spec (r_cfg r) Hok _ Hb) as [d [E1 [W1 V1]]]. rewrite E1. cbn [bind].
  rewrite firstn_firstn, Nat.min_r in V1 by lia.
  destruct (dmod_spec (r_cfg r) Hok d (r_MODULUS r) W1 (ff_wf _ (fp_ok_facts r Hf)) (p_pos r Hf)) as [e [E2 [W2 V2]]]. exists e. split; [exact E2|]. split; [exact W2|]. unfold bval. rewrite V2, V1. reflexivity.
Qed.
(** the object made of the number 0 stores an integer below p (checked by computation for the ROMs) *)
Definition zst : Prop := forall f, fp_new_big r (repeat 0 (NLEN (r_cfg r))) = Some f -> val (BASEBITS (r_cfg r)) (fx f) < pmod r.
Definition el1s (f : fp) (v : list Z) : Prop := exists x, v = [x] /\ el1 r 2 f x /\ 0 <= x < pmod r /\ (zst -> x = 0 -> val (BASEBITS (r_cfg r)) (fx f) < pmod r).
Lemma loop1_ok u : bytes u -> forall n i, (64 * (i + n) <= length u)%nat ->
  exists fs, h2f1_loop r n (Z.of_nat i) u = Some fs /\ Forall2 el1s fs (map (fun i => map (coordinate (pmod r) 64 1 u i) (seq 0 1)) (seq i n)).
Proof.
  intros Hu. induction n as [|n IH]; intros i L; [exists []; split; [reflexivity|constructor]|].
  cbn [h2f1_loop seq map]. unfold H2C_L. replace (64 * Z.of_nat i) with (Z.of_nat (64 * i)) by lia.
  destruct (elem_ok u (64 * i) Hu ltac:(lia)) as [e [E1 [W1 V1]]]. rewrite E1. cbn [bind].
  destruct (el1_new_big r Hf Hns e W1) as [f [E2 R]]. rewrite E2. cbn [bind]. replace (Z.of_nat i + 1) with (Z.of_nat (S i)) by lia.
  destruct (IH (S i) ltac:(lia)) as [fs [E3 F3]]. rewrite E3. cbn [bind]. exists (f :: fs). split; [reflexivity|]. constructor; [|exact F3].
  eexists. split; [reflexivity|]. rewrite V1 in R. unfold coordinate. replace (64 * (0 + i * 1))%nat with (64 * i)%nat by lia. split; [exact R|]. split; [apply Z.mod_pos_bound; exact (p_pos r Hf)|].
  intros HZ E0. rewrite E0 in V1. pose proof (cf_B _ (cfg_ok_facts _ (ff_ok _ (fp_ok_facts r Hf)))) as HB. assert (EZ : e = repeat 0 (NLEN (r_cfg r))) by (rewrite <- (proj1 W1); apply (val_zeros (BASEBITS (r_cfg r))); [lia|exact (proj2 W1)|exact V1]). subst e. exact (HZ f E2).
Qed.
Lemma loop2_ok u : bytes u -> forall n i, (128 * (i + n) <= length u)%nat ->
  exists fs, h2f2_loop r n (Z.of_nat i) u = Some fs /\ Forall2 (fun f v => exists x y, v = [x; y] /\ el2 r 2 f (x, y)) fs (map (fun i => map (coordinate (pmod r) 64 2 u i) (seq 0 2)) (seq i n)).
Proof.
  intros Hu. induction n as [|n IH]; intros i L; [exists []; split; [reflexivity|constructor]|].
  cbn [h2f2_loop seq map]. unfold H2C_L. replace (64 * (0 + Z.of_nat i * 2)) with (Z.of_nat (64 * (0 + i * 2))) by lia. replace (64 * (1 + Z.of_nat i * 2)) with (Z.of_nat (64 * (1 + i * 2))) by lia.
  destruct (elem_ok u (64 * (0 + i * 2)) Hu ltac:(lia)) as [e [E1 [W1 V1]]]. rewrite E1. cbn [bind].
  destruct (elem_ok u (64 * (1 + i * 2)) Hu ltac:(lia)) as [e' [E1' [W1' V1']]]. rewrite E1'. cbn [bind].
  destruct (el2_new_bigs r Hf Hns e e' W1 W1') as [f [E2 R]]. rewrite E2. cbn [bind]. replace (Z.of_nat i + 1) with (Z.of_nat (S i)) by lia.
  destruct (IH (S i) ltac:(lia)) as [fs [E3 F3]]. rewrite E3. cbn [bind]. exists (f :: fs). split; [reflexivity|]. constructor; [|exact F3].
  eexists _, _. split; [reflexivity|]. rewrite V1, V1' in R. exact R.
Qed.
Lemma htf1_strong msg count dst : length msg = mlen -> length dst = dlen -> bytes msg -> bytes dst -> 64 * Z.of_nat count + Z.of_nat (outlen P) < 2 ^ 64 ->
  match HTF H (outlen P) (Sha2Spec.B P) (pmod r) 64 1 msg count dst with
  | None => hash_to_field_fp C bd r msg (Z.of_nat count) dst = Some (Err HashToFieldError)
  | Some vs => exists us, hash_to_field_fp C bd r msg (Z.of_nat count) dst = Some (Ok us) /\ Forall2 el1s us vs
  end.
Proof.
  intros Lm Ld Hm Hd R. pose proof out_le as O. unfold HTF, hash_to_field_fp, usz, H2C_L.
  destruct (Z.ltb_spec (Z.of_nat count * 1) (2 ^ 64)) as [G|G]; [|lia]. cbn [bind]. destruct (Z.ltb_spec (Z.of_nat count * 1 * 64) (2 ^ 64)) as [G'|G']; [|lia]. cbn [bind].
  replace (Z.of_nat count * 1 * 64) with (Z.of_nat (count * 1 * 64)) by lia. rewrite expand_ok by (assumption || lia).
  destruct (XMD H (outlen P) (Sha2Spec.B P) msg (count * 1 * 64) dst) as [u|] eqn:EX; [|reflexivity]. cbn [rbind].
  destruct (uniform_len _ _ _ _ EX) as [Lu Bu].
  unfold capacity. destruct (Z.ltb_spec (Z.of_nat count) (2 ^ 58)) as [G2|G2]; [|lia]. cbn [bind]. rewrite Nat2Z.id.
  destruct (loop1_ok u Bu count 0 ltac:(lia)) as [fs [E F]]. change (Z.of_nat 0) with 0 in E. rewrite E. cbn [bind]. exists fs. split; [reflexivity|exact F].
Qed.
Lemma htf1_ok msg count dst : length msg = mlen -> length dst = dlen -> bytes msg -> bytes dst -> 64 * Z.of_nat count + Z.of_nat (outlen P) < 2 ^ 64 ->
  match HTF H (outlen P) (Sha2Spec.B P) (pmod r) 64 1 msg count dst with
  | None => hash_to_field_fp C bd r msg (Z.of_nat count) dst = Some (Err HashToFieldError)
  | Some vs => exists us, hash_to_field_fp C bd r msg (Z.of_nat count) dst = Some (Ok us) /\ Forall2 (fun f v => exists x, v = [x] /\ el1 r 2 f x) us vs
  end.
Proof.
  intros Lm Ld Hm Hd R. pose proof (htf1_strong msg count dst Lm Ld Hm Hd R) as Q. destruct (HTF _ _ _ _ _ _ _ _ _) as [vs|]; [|exact Q]. destruct Q as [us [E F]]. exists us. split; [exact E|].
  clear E. induction F as [|f v fs vs [x [Ex [Rx _]]] F IH]; constructor; [exists x; split; assumption|exact IH].
Qed.
Lemma htf2_ok msg count dst : length msg = mlen -> length dst = dlen -> bytes msg -> bytes dst -> 128 * Z.of_nat count + Z.of_nat (outlen P) < 2 ^ 64 ->
  match HTF H (outlen P) (Sha2Spec.B P) (pmod r) 64 2 msg count dst with
  | None => hash_to_field_fp2 C bd r msg (Z.of_nat count) dst = Some (Err HashToFieldError)
  | Some vs => exists us, hash_to_field_fp2 C bd r msg (Z.of_nat count) dst = Some (Ok us) /\ Forall2 (fun f v => exists x y, v = [x; y] /\ el2 r 2 f (x, y)) us vs
  end.
Proof.
  intros Lm Ld Hm Hd R. pose proof out_le as O. unfold HTF, hash_to_field_fp2, usz, H2C_L.
  destruct (Z.ltb_spec (Z.of_nat count * 2) (2 ^ 64)) as [G|G]; [|lia]. cbn [bind]. destruct (Z.ltb_spec (Z.of_nat count * 2 * 64) (2 ^ 64)) as [G'|G']; [|lia]. cbn [bind].
  replace (Z.of_nat count * 2 * 64) with (Z.of_nat (count * 2 * 64)) by lia. rewrite expand_ok by (assumption || lia).
  destruct (XMD H (outlen P) (Sha2Spec.B P) msg (count * 2 * 64) dst) as [u|] eqn:EX; [|reflexivity]. cbn [rbind].
  destruct (uniform_len _ _ _ _ EX) as [Lu Bu].
  unfold capacity. destruct (Z.ltb_spec (Z.of_nat count) (2 ^ 58)) as [G2|G2]; [|lia]. cbn [bind]. rewrite Nat2Z.id.
  destruct (loop2_ok u Bu count 0 ltac:(lia)) as [fs [E F]]. change (Z.of_nat 0) with 0 in E. rewrite E. cbn [bind]. exists fs. split; [reflexivity|exact F].
Qed.
End X.
