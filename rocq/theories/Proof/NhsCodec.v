(** NewHope: packing, compression, key encoding. *)
From Verif Require Import Base.Word Base.Arr Model.Nhs Spec.Bytes Spec.NhsSpec Proof.NhsRed.
From Coq Require Import Lia.

Ltac zc := change (2 ^ 31) with 2147483648 in *; change (2 ^ 30) with 1073741824 in *; change (2 ^ 14) with 16384 in *; change (2 ^ 8) with 256 in *.
Lemma l255 x : Z.land x 255 = x mod 256. Proof. exact (land_mask x 8 ltac:(lia)). Qed.
Lemma l63 x : Z.land x 63 = x mod 64. Proof. exact (land_mask x 6 ltac:(lia)). Qed.
Lemma l15 x : Z.land x 15 = x mod 16. Proof. exact (land_mask x 4 ltac:(lia)). Qed.
Lemma l7 x : Z.land x 7 = x mod 8. Proof. exact (land_mask x 3 ltac:(lia)). Qed.
Lemma l3 x : Z.land x 3 = x mod 4. Proof. exact (land_mask x 2 ltac:(lia)). Qed.
Ltac dm := rewrite ?l255, ?l63, ?l15, ?l7, ?l3.
Ltac ceq := repeat (apply (f_equal2 (@cons Z)); [try (Z.div_mod_to_equations; lia)|]); try reflexivity.
(** ** packing *)
Definition b14 (x : Z) : Prop := 0 <= x < 2 ^ 14.
Lemma pk a b m k : 0 <= k -> 0 <= m -> 0 <= a < 2 ^ k -> b14 b -> k <= 8 -> Z.land (Z.lor a (wrap 32 (Z.shiftl b k))) 255 = (a + b * 2 ^ k) mod 256.
Proof.
  intros Hk Hm Ha Hb K8. unfold b14 in Hb. rewrite Z.shiftl_mul_pow2 by lia. pose proof (pow2_pos k Hk). pose proof (pow2_le k 8 ltac:(lia)) as L. zc. assert (0 <= b * 2 ^ k <= 16384 * 256) by (split; [apply Z.mul_nonneg_nonneg; lia|apply Z.mul_le_mono_nonneg; lia]).
  rewrite wrap_id by (try lia; change (2 ^ (32 - 1)) with 2147483648; lia). rewrite lor_disjoint by lia. change 255 with (2 ^ 8 - 1). rewrite land_mask by lia. reflexivity.
Qed.
Lemma pack4_val a b c d : b14 a -> b14 b -> b14 c -> b14 d ->
  pack4 a b c d = [a mod 256; a / 256 + 64 * (b mod 4); (b / 4) mod 256; b / 1024 + 16 * (c mod 16); (c / 16) mod 256; c / 4096 + 4 * (d mod 64); d / 64].
Proof.
  intros Ha Hb Hc Hd. unfold pack4. cbv zeta. rewrite !Z.shiftr_div_pow2 by lia. assert (Ha' := Ha). assert (Hb' := Hb). assert (Hc' := Hc). assert (Hd' := Hd). unfold b14 in Ha', Hb', Hc', Hd'. zc.
  rewrite (pk (a / 256) b 0 6), (pk (b / 2 ^ 10) c 0 4), (pk (c / 2 ^ 12) d 0 2); try assumption; try lia;
    try (change (2 ^ 6) with 64; change (2 ^ 10) with 1024; change (2 ^ 4) with 16; change (2 ^ 12) with 4096; change (2 ^ 2) with 4; split; [apply Z.div_pos; lia|apply Z.div_lt_upper_bound; lia]).
  change (2 ^ 2) with 4. change (2 ^ 10) with 1024. change (2 ^ 4) with 16. change (2 ^ 6) with 64. change (2 ^ 12) with 4096.
  dm. zc. unfold wrapu. zc. ceq.
Qed.
Lemma unpack7_val a b c d e f g : is_byte a -> is_byte b -> is_byte c -> is_byte d -> is_byte e -> is_byte f -> is_byte g ->
  unpack7 a b c d e f g = [a + 256 * (b mod 64); b / 64 + 4 * c + 1024 * (d mod 16); d / 16 + 16 * e + 4096 * (f mod 4); f / 4 + 64 * g].
Proof.
  unfold is_byte. intros Ha Hb Hc Hd He Hf Hg. unfold unpack7. dm. rewrite !Z.shiftr_div_pow2, !Z.shiftl_mul_pow2 by lia.
  rewrite (lor_disjoint a _ 8) by (zc; lia). rewrite (lor_disjoint (b / 2 ^ 6) c 2) by (change (2 ^ 2) with 4; change (2 ^ 6) with 64; try lia; Z.div_mod_to_equations; lia).
  rewrite (lor_disjoint (d / 2 ^ 4) e 4) by (change (2 ^ 4) with 16; try lia; Z.div_mod_to_equations; lia). rewrite (lor_disjoint (f / 2 ^ 2) g 6) by (change (2 ^ 2) with 4; change (2 ^ 6) with 64; try lia; Z.div_mod_to_equations; lia).
  rewrite (lor_disjoint _ _ 10) by (change (2 ^ 2) with 4; change (2 ^ 6) with 64; change (2 ^ 10) with 1024; try lia; Z.div_mod_to_equations; lia).
  rewrite (lor_disjoint _ _ 12) by (change (2 ^ 4) with 16; change (2 ^ 12) with 4096; try lia; Z.div_mod_to_equations; lia).
  change (2 ^ 8) with 256. change (2 ^ 2) with 4. change (2 ^ 6) with 64. change (2 ^ 10) with 1024. change (2 ^ 4) with 16. change (2 ^ 12) with 4096. ceq.
Qed.
Lemma list4 (P : list Z -> Prop) : P [] -> (forall a b c d l, P l -> P (a :: b :: c :: d :: l)) -> forall n l, length l = (4 * n)%nat -> P l.
Proof. intros H0 HS. induction n as [|n IH]; intros l L; [destruct l; [exact H0|discriminate L]|]. destruct l as [|a [|b [|c [|d l]]]]; cbn [length] in L; try lia. apply HS, IH. lia. Qed.
Lemma unpack_pack n l : length l = (4 * n)%nat -> Forall b14 l -> nhs_unpack (nhs_pack l) = l.
Proof.
  intros L. revert l L. apply (list4 (fun l => Forall b14 l -> nhs_unpack (nhs_pack l) = l)); [reflexivity|]. intros a b c d l IH F.
  inversion_clear F as [|? ? A F1]. inversion_clear F1 as [|? ? B F2]. inversion_clear F2 as [|? ? C F3]. inversion_clear F3 as [|? ? D F4]. cbn [nhs_pack]. rewrite pack4_val by assumption. cbn [app nhs_unpack].
  unfold b14 in *. zc. rewrite unpack7_val by (unfold is_byte; Z.div_mod_to_equations; lia). rewrite (IH F4). cbn [app].
  ceq.
Qed.
Lemma pack_bytes n l : length l = (4 * n)%nat -> Forall b14 l -> bytes (nhs_pack l) /\ length (nhs_pack l) = (7 * n)%nat.
Proof.
  revert l. induction n as [|n IH]; intros l L F; [destruct l; [split; [constructor|reflexivity]|discriminate L]|]. destruct l as [|a [|b [|c [|d l]]]]; cbn [length] in L; try lia.
  inversion_clear F as [|? ? A F1]. inversion_clear F1 as [|? ? B F2]. inversion_clear F2 as [|? ? C F3]. inversion_clear F3 as [|? ? D F4]. destruct (IH l ltac:(lia) F4) as [I1 I2]. cbn [nhs_pack]. rewrite pack4_val by assumption. unfold b14 in *. zc. split.
  - cbn [app]. repeat (apply Forall_cons; [unfold is_byte; Z.div_mod_to_equations; lia|]). exact I1.
  - rewrite app_length, I2. cbn [length]. lia.
Qed.
Lemma unpack_range n l : length l = (7 * n)%nat -> bytes l -> Forall b14 (nhs_unpack l) /\ length (nhs_unpack l) = (4 * n)%nat.
Proof.
  revert l. induction n as [|n IH]; intros l L F; [destruct l; [split; [constructor|reflexivity]|discriminate L]|]. destruct l as [|a [|b [|c [|d [|e [|f [|g l]]]]]]]; cbn [length] in L; try lia.
  inversion_clear F as [|? ? A F1]. inversion_clear F1 as [|? ? B F2]. inversion_clear F2 as [|? ? C F3]. inversion_clear F3 as [|? ? D F4]. inversion_clear F4 as [|? ? E F5]. inversion_clear F5 as [|? ? G F6]. inversion_clear F6 as [|? ? H F7].
  destruct (IH l ltac:(lia) F7) as [I1 I2]. cbn [nhs_unpack]. rewrite unpack7_val by assumption. unfold is_byte, b14 in *. zc. split.
  - cbn [app]. repeat (apply Forall_cons; [Z.div_mod_to_equations; lia|]). exact I1.
  - rewrite app_length, I2. cbn [length]. lia.
Qed.

(** ** compression *)
Definition cb (x : Z) : Z := ((8 * x + 6144) / q) mod 8.
Definition db (b : Z) : Z := (b * q + 4) / 8.
Lemma round_ok a b : 0 <= a < 2 ^ 30 -> 0 < b < 2 ^ 30 -> round a b = Some ((a + b / 2) / b).
Proof.
  intros Ha Hb. unfold round. rewrite Z.quot_div_nonneg by lia. assert (0 <= b / 2 <= b) by (Z.div_mod_to_equations; lia). zc. rewrite add_ok by (zc; lia). cbn [bind]. rewrite Z.quot_div_nonneg by lia. reflexivity.
Qed.
Lemma cb_step x col : 0 <= x < 4 * q -> 0 <= col < 2 ^ 24 -> (y <- mul32 x 8 ;; b <- round y PRIME ;; add32 (wrap 32 (Z.shiftl col 3)) (Z.land b 7)) = Some (col * 8 + cb x).
Proof.
  intros Hx Hc. unfold mul32. change (2 ^ 24) with 16777216 in Hc. unfold q in Hx. rewrite chk_ok by (change (2 ^ (32 - 1)) with 2147483648; lia). cbn [bind]. change PRIME with q. rewrite round_ok by (unfold q; zc; lia). cbn [bind]. change (q / 2) with 6144. rewrite Z.shiftl_mul_pow2 by lia. change (2 ^ 3) with 8.
  rewrite wrap_id by (try lia; change (2 ^ (32 - 1)) with 2147483648; lia). dm. change (2 ^ 3) with 8. replace (x * 8 + 6144) with (8 * x + 6144) by ring. fold (cb x). assert (0 <= cb x < 8) by (apply Z.mod_pos_bound; lia). rewrite add_ok by (zc; lia). reflexivity.
Qed.
Lemma cb_range x : 0 <= cb x < 8. Proof. apply Z.mod_pos_bound. lia. Qed.
Lemma compress_col_S x p n col : 0 <= x < 4 * q -> 0 <= col < 2 ^ 24 -> compress_col (x :: p) (S n) col = compress_col p n (col * 8 + cb x).
Proof. intros Hx Hc. pose proof (cb_step x col Hx Hc) as H. cbn [compress_col]. destruct (mul32 x 8) as [y|]; cbn [bind] in *; [|discriminate]. destruct (round y PRIME) as [b|]; cbn [bind] in *; [|discriminate]. rewrite H. reflexivity. Qed.
Lemma compress_col_0 p col : compress_col p 0 col = Some (col, p). Proof. destruct p; reflexivity. Qed.
(** bits 21..23 *)
Lemma top_bits z : Z.shiftr (Z.land z 0xe00000) 21 = (z / 2 ^ 21) mod 8.
Proof. rewrite Z.shiftr_land. change (Z.shiftr 0xe00000 21) with (2 ^ 3 - 1). rewrite land_mask, Z.shiftr_div_pow2 by lia. reflexivity. Qed.
Lemma wrap_top z : (wrap 32 z / 2 ^ 21) mod 8 = (z / 2 ^ 21) mod 8.
Proof.
  unfold wrap. set (h := 2 ^ (32 - 1)). pose proof (Z.div_mod (z + h) (2 ^ 32) ltac:(discriminate)) as E. set (k := (z + h) / 2 ^ 32) in *. replace ((z + h) mod 2 ^ 32 - h) with (z + (- k * 256) * 8 * 2 ^ 21) by (change (2 ^ 32) with 4294967296 in *; change (2 ^ 21) with 2097152; lia).
  rewrite Z.div_add by discriminate. apply Z_mod_plus_full.
Qed.
Lemma decompress_col_ok : forall n col c, (forall k, (k < n)%nat -> (col * 8 ^ Z.of_nat k / 2 ^ 21) mod 8 = c k) -> decompress_col n col = Some (map (fun k => db (c k)) (seq 0 n)).
Proof.
  induction n as [|n IH]; intros col c H; [reflexivity|]. cbn [decompress_col]. rewrite top_bits. pose proof (H 0%nat ltac:(lia)) as H0. change (8 ^ Z.of_nat 0) with 1 in H0. rewrite Z.mul_1_r in H0. rewrite H0.
  assert (B : 0 <= c 0%nat < 8) by (rewrite <- H0; apply Z.mod_pos_bound; lia). unfold mul32. change PRIME with q. rewrite chk_ok by (change (2 ^ (32 - 1)) with 2147483648; unfold q; lia). cbn [bind]. rewrite round_ok by (unfold q; zc; lia). cbn [bind]. change (8 / 2) with 4. fold (db (c 0%nat)).
  rewrite (IH (wrap 32 (Z.shiftl col 3)) (fun k => c (S k))).
  - cbn [bind seq map]. rewrite <- seq_shift, map_map. reflexivity.
  - intros k Hk. rewrite <- (H (S k)) by lia. rewrite <- (wrap_top (col * 8 ^ Z.of_nat (S k))), <- (wrap_top (wrap 32 (Z.shiftl col 3) * _)). do 2 f_equal. rewrite Z.shiftl_mul_pow2 by lia. change (2 ^ 3) with 8. rewrite Nat2Z.inj_succ, Z.pow_succ_r by lia.
    unfold wrap. set (h := 2 ^ (32 - 1)). f_equal. set (P := 8 ^ Z.of_nat k). pose proof (Z.div_mod (col * 8 + h) (2 ^ 32) ltac:(discriminate)) as E. set (d := (col * 8 + h) / 2 ^ 32) in *.
    replace (((col * 8 + h) mod 2 ^ 32 - h) * P + h) with (col * (8 * P) + h + (- d * P) * 2 ^ 32); [apply Z_mod_plus_full|]. replace ((col * 8 + h) mod 2 ^ 32) with (col * 8 + h - 2 ^ 32 * d) by lia. ring.
Qed.
Lemma digit8 hi b lo Q M D : 0 <= b < 8 -> 0 <= lo < Q -> 0 < M -> Q * M = D -> (((hi * 8 + b) * Q + lo) * M / D) mod 8 = b.
Proof.
  intros Hb Hl HM <-. rewrite Z.div_mul_cancel_r by lia. rewrite Z.div_add_l by lia. rewrite (Z.div_small lo Q) by lia. rewrite Z.add_0_r, Z.add_comm, Z_mod_plus_full. apply Z.mod_small. exact Hb.
Qed.
Lemma list8 (P : nat -> list Z -> Prop) : P 0%nat [] -> (forall n a b c d e f g h l, P n l -> P (S n) (a :: b :: c :: d :: e :: f :: g :: h :: l)) -> forall n l, length l = (8 * n)%nat -> P n l.
Proof. intros H0 HS. induction n as [|n IH]; intros l L; [destruct l; [exact H0|discriminate L]|]. destruct l as [|a [|b [|c [|d [|e [|f [|g [|h l]]]]]]]]; cbn [length] in L; try lia. apply HS, IH. lia. Qed.
Lemma compress_ok n l : length l = (8 * n)%nat -> Forall (fun x => 0 <= x < 4 * q) l ->
  exists r, compress n l = Some r /\ bytes r /\ length r = (3 * n)%nat /\ decompress r = Some (map (fun x => db (cb x)) l).
Proof.
  intros L. revert n l L. apply (list8 (fun n l => Forall (fun x => 0 <= x < 4 * q) l -> exists r, compress n l = Some r /\ bytes r /\ length r = (3 * n)%nat /\ decompress r = Some (map (fun x => db (cb x)) l))).
  - intros _. exists []. repeat split. constructor.
  - intros n a b c d e f g h l IH F.
    inversion_clear F as [|? ? A F1]. inversion_clear F1 as [|? ? B F2]. inversion_clear F2 as [|? ? C F3]. inversion_clear F3 as [|? ? D F4]. inversion_clear F4 as [|? ? E F5]. inversion_clear F5 as [|? ? G F6]. inversion_clear F6 as [|? ? H F7]. inversion_clear F7 as [|? ? I F8].
    destruct (IH F8) as [r [R1 [R2 [R3 R4]]]]. pose proof (cb_range a) as A'. pose proof (cb_range b) as B'. pose proof (cb_range c) as C'. pose proof (cb_range d) as D'. pose proof (cb_range e) as E'. pose proof (cb_range f) as G'. pose proof (cb_range g) as H'. pose proof (cb_range h) as I'.
    cbn [compress]. do 8 (rewrite compress_col_S; [|assumption|change (2 ^ 24) with 16777216; lia]). rewrite compress_col_0. cbn [bind fst snd]. rewrite R1. cbn [bind]. set (col := (((((((0 * 8 + cb a) * 8 + cb b) * 8 + cb c) * 8 + cb d) * 8 + cb e) * 8 + cb f) * 8 + cb g) * 8 + cb h).
    assert (HC : 0 <= col < 16777216) by (unfold col; lia). dm. rewrite !Z.shiftr_div_pow2 by lia. change (2 ^ 8) with 256. change (2 ^ 16) with 65536.
    eexists. split; [reflexivity|]. split; [|split].
    + repeat (apply Forall_cons; [unfold is_byte; apply Z.mod_pos_bound; lia|]). exact R2.
    + cbn [length]. lia.
    + cbn [decompress]. rewrite !Z.shiftl_mul_pow2 by lia. change (2 ^ 8) with 256.
      pose proof (Z.mod_pos_bound col 256 ltac:(lia)) as M0. pose proof (Z.mod_pos_bound (col / 256) 256 ltac:(lia)) as M1. pose proof (Z.mod_pos_bound (col / 65536) 256 ltac:(lia)) as M2.
      assert (V : (col / 65536 mod 256 * 256 + col / 256 mod 256) * 256 + col mod 256 = col) by (clear - HC; Z.div_mod_to_equations; lia).
      set (m0 := col mod 256) in *. set (m1 := (col / 256) mod 256) in *. set (m2 := (col / 65536) mod 256) in *. clearbody m0 m1 m2.
      rewrite wrap_id by (try lia; change (2 ^ (32 - 1)) with 2147483648; lia). rewrite add_ok by (zc; lia). cbn [bind]. rewrite Z.shiftl_mul_pow2 by lia. change (2 ^ 8) with 256. rewrite wrap_id by (try lia; change (2 ^ (32 - 1)) with 2147483648; lia). rewrite add_ok by (zc; lia). cbn [bind]. rewrite V.
      rewrite (decompress_col_ok 8 col (fun k => nth k (map cb [a; b; c; d; e; f; g; h]) 0)).
      * cbn [bind]. rewrite R4. reflexivity.
      * intros k Hk. assert (K : (k = 0 \/ k = 1 \/ k = 2 \/ k = 3 \/ k = 4 \/ k = 5 \/ k = 6 \/ k = 7)%nat) by lia. unfold col. clear - K A' B' C' D' E' G' H' I'. change (2 ^ 21) with 2097152. cbn [map].
        generalize dependent (cb a). generalize dependent (cb b). generalize dependent (cb c). generalize dependent (cb d). generalize dependent (cb e). generalize dependent (cb f). generalize dependent (cb g). generalize dependent (cb h).
        intros h' HH g' HG f' HF e' HE d' HD c' HC b' HB a' HA.
        destruct K as [->|K].
        { cbn [map nth]. change (8 ^ Z.of_nat 0) with 1. etransitivity; [|apply (digit8 (0) a' ((((((((0 * 8 + b') * 8 + c') * 8 + d') * 8 + e') * 8 + f') * 8 + g') * 8 + h')) 2097152 1 2097152); try reflexivity; lia]. do 2 f_equal; ring. }
        destruct K as [->|K].
        { cbn [map nth]. change (8 ^ Z.of_nat 1) with 8. etransitivity; [|apply (digit8 ((0 * 8 + a')) b' (((((((0 * 8 + c') * 8 + d') * 8 + e') * 8 + f') * 8 + g') * 8 + h')) 262144 8 2097152); try reflexivity; lia]. do 2 f_equal; ring. }
        destruct K as [->|K].
        { cbn [map nth]. change (8 ^ Z.of_nat 2) with 64. etransitivity; [|apply (digit8 (((0 * 8 + a') * 8 + b')) c' ((((((0 * 8 + d') * 8 + e') * 8 + f') * 8 + g') * 8 + h')) 32768 64 2097152); try reflexivity; lia]. do 2 f_equal; ring. }
        destruct K as [->|K].
        { cbn [map nth]. change (8 ^ Z.of_nat 3) with 512. etransitivity; [|apply (digit8 ((((0 * 8 + a') * 8 + b') * 8 + c')) d' (((((0 * 8 + e') * 8 + f') * 8 + g') * 8 + h')) 4096 512 2097152); try reflexivity; lia]. do 2 f_equal; ring. }
        destruct K as [->|K].
        { cbn [map nth]. change (8 ^ Z.of_nat 4) with 4096. etransitivity; [|apply (digit8 (((((0 * 8 + a') * 8 + b') * 8 + c') * 8 + d')) e' ((((0 * 8 + f') * 8 + g') * 8 + h')) 512 4096 2097152); try reflexivity; lia]. do 2 f_equal; ring. }
        destruct K as [->|K].
        { cbn [map nth]. change (8 ^ Z.of_nat 5) with 32768. etransitivity; [|apply (digit8 ((((((0 * 8 + a') * 8 + b') * 8 + c') * 8 + d') * 8 + e')) f' (((0 * 8 + g') * 8 + h')) 64 32768 2097152); try reflexivity; lia]. do 2 f_equal; ring. }
        destruct K as [->|K].
        { cbn [map nth]. change (8 ^ Z.of_nat 6) with 262144. etransitivity; [|apply (digit8 (((((((0 * 8 + a') * 8 + b') * 8 + c') * 8 + d') * 8 + e') * 8 + f')) g' ((0 * 8 + h')) 8 262144 2097152); try reflexivity; lia]. do 2 f_equal; ring. }
        subst k.
        cbn [map nth]. change (8 ^ Z.of_nat 7) with 2097152. etransitivity; [|apply (digit8 ((((((((0 * 8 + a') * 8 + b') * 8 + c') * 8 + d') * 8 + e') * 8 + f') * 8 + g')) h' (0) 1 2097152 2097152); try reflexivity; lia]. do 2 f_equal; ring.
Qed.
(** compressing and decompressing moves a coefficient by at most 768 *)
Lemma compress_err x : 0 <= x -> exists e, -768 <= e <= 768 /\ cgq (db (cb x)) (x + e) /\ 0 <= db (cb x) <= 10753.
Proof.
  intros Hx. unfold db, cb. set (r := (8 * x + 6144) / q). pose proof (Z.div_mod (8 * x + 6144) q q_nz) as E1. pose proof (Z.mod_pos_bound (8 * x + 6144) q q_pos) as B1. fold r in E1.
  pose proof (Z.div_mod r 8 ltac:(lia)) as E2. pose proof (Z.mod_pos_bound r 8 ltac:(lia)) as B2. set (b := r mod 8) in *. set (j := r / 8) in *.
  pose proof (Z.div_mod (b * q + 4) 8 ltac:(lia)) as E3. pose proof (Z.mod_pos_bound (b * q + 4) 8 ltac:(lia)) as B3. set (D := (b * q + 4) / 8) in *. exists (D + j * q - x). unfold q in *. split; [lia|]. split; [|lia].
  apply cgq_iff. exists (- j). unfold q. lia.
Qed.
Lemma decompress_total n l : length l = (3 * n)%nat -> bytes l -> exists r, decompress l = Some r /\ length r = (8 * n)%nat /\ Forall (fun x => 0 <= x <= 10753) r.
Proof.
  revert l. induction n as [|n IH]; intros l L F; [destruct l; [exists []; repeat split; constructor|discriminate L]|]. destruct l as [|a [|b [|c l]]]; cbn [length] in L; try lia.
  inversion_clear F as [|? ? A F1]. inversion_clear F1 as [|? ? B F2]. inversion_clear F2 as [|? ? C F3]. destruct (IH l ltac:(lia) F3) as [r [R1 [R2 R3]]]. unfold is_byte in *. cbn [decompress]. rewrite Z.shiftl_mul_pow2 by lia. change (2 ^ 8) with 256.
  rewrite wrap_id by (try lia; change (2 ^ (32 - 1)) with 2147483648; lia). rewrite add_ok by (zc; lia). cbn [bind]. rewrite Z.shiftl_mul_pow2 by lia. change (2 ^ 8) with 256. rewrite wrap_id by (try lia; change (2 ^ (32 - 1)) with 2147483648; lia). rewrite add_ok by (zc; lia). cbn [bind].
  rewrite (decompress_col_ok 8 _ (fun k => (((c * 256 + b) * 256 + a) * 8 ^ Z.of_nat k / 2 ^ 21) mod 8)) by reflexivity. cbn [bind]. rewrite R1. cbn [bind]. eexists. split; [reflexivity|]. split; [rewrite app_length, map_length, seq_length; lia|].
  apply Forall_app. split; [|exact R3]. apply Forall_forall. intros x Hx. apply in_map_iff in Hx. destruct Hx as [k [<- _]]. unfold db, q. pose proof (Z.mod_pos_bound (((c * 256 + b) * 256 + a) * 8 ^ Z.of_nat k / 2 ^ 21) 8 ltac:(lia)) as M. revert M. generalize ((((c * 256 + b) * 256 + a) * 8 ^ Z.of_nat k / 2 ^ 21) mod 8). intros v M. split; [apply Z.div_pos; lia|]. apply Z.lt_succ_r, Z.div_lt_upper_bound; lia.
Qed.

(** ** keys *)
Lemma key_bit_range key i : 0 <= key_bit key i <= 1.
Proof. unfold key_bit. change 1 with (2 ^ 1 - 1) at 1 2. rewrite land_mask by lia. pose proof (Z.mod_pos_bound (Z.shiftr (at_ key (i mod 256 / 8)) (Z.of_nat (i mod 256 mod 8))) (2 ^ 1) ltac:(reflexivity)). change (2 ^ 1) with 2 in *. lia. Qed.
Lemma encode_ok key : exists p, encode key = Some p /\ length p = N /\ forall i, (i < N)%nat -> at_ p i = key_bit key i * 6144.
Proof.
  unfold encode. destruct (map_opt_nth 0%nat 0 (fun i => mul32 (key_bit key i) (Z.quot PRIME 2)) (fun i z => z = key_bit key i * 6144) (seq 0 DEGREE)) as [p [P1 [P2 P3]]].
  - rewrite seq_length. intros i Hi. rewrite seq_nth by exact Hi. exists (key_bit key i * 6144). split; [|reflexivity]. apply chk_ok. change (Z.quot PRIME 2) with 6144. pose proof (key_bit_range key i). change (2 ^ (32 - 1)) with 2147483648. lia.
  - rewrite seq_length in *. exists p. split; [exact P1|]. split; [exact P2|exact P3].
Qed.
Lemma nabs_ok x : - 2 ^ 30 < x < 2 ^ 30 -> nabs x = Some (Z.abs x).
Proof.
  intros H. unfold nabs. cbv zeta. rewrite sar_cases by (zc; lia). destruct (Z.ltb_spec x 0).
  - rewrite add_ok by (zc; lia). cbn [bind]. rewrite Z.lxor_m1_r. f_equal. unfold Z.lnot. lia.
  - rewrite add_ok by (zc; lia). cbn [bind]. rewrite Z.lxor_0_r. f_equal. lia.
Qed.
Definition dist (p : list Z) (i : nat) : Z := Z.abs (at_ p i - 6144).
Lemma decode_bit_ok p i : (forall j, 0 <= at_ p j <= 100000) -> decode_bit p i = Some (if dist p i + dist p (i + 256) + dist p (i + 512) + dist p (i + 768) <? q then 1 else 0).
Proof.
  intros H. unfold decode_bit. cbv zeta. change (Z.quot PRIME 2) with 6144. change PRIME with q.
  pose proof (H i) as H0. pose proof (H (i + 256)%nat) as H1. pose proof (H (i + 512)%nat) as H2. pose proof (H (i + 768)%nat) as H3.
  repeat (rewrite sub_ok by (zc; lia); cbn [bind]; rewrite nabs_ok by (zc; lia); cbn [bind]; rewrite ?add_ok by (zc; lia); cbn [bind]).
  unfold dist. set (t := Z.abs (at_ p i - 6144) + Z.abs (at_ p (i + 256) - 6144) + Z.abs (at_ p (i + 512) - 6144) + Z.abs (at_ p (i + 768) - 6144)). assert (0 <= t <= 400000) by (unfold t; lia). unfold q. rewrite sub_ok by (zc; lia). cbn [bind]. rewrite sar_cases by (zc; lia).
  destruct (Z.ltb_spec (t - 12289) 0); destruct (Z.ltb_spec t 12289); try lia; reflexivity.
Qed.
Lemma decode_byte_ok p j (c : nat -> Z) : (forall k, (k < 8)%nat -> 0 <= c k <= 1 /\ decode_bit p (8 * j + k) = Some (c k)) ->
  decode_byte p 8 (8 * j) 0 = Some (c 0%nat + 2 * c 1%nat + 4 * c 2%nat + 8 * c 3%nat + 16 * c 4%nat + 32 * c 5%nat + 64 * c 6%nat + 128 * c 7%nat).
Proof.
  intros H. assert (B : forall k, (k < 8)%nat -> 0 <= c k <= 1) by (intros k Hk; apply H; exact Hk).
  pose proof (B 0%nat ltac:(lia)) as B0. pose proof (B 1%nat ltac:(lia)) as B1. pose proof (B 2%nat ltac:(lia)) as B2. pose proof (B 3%nat ltac:(lia)) as B3. pose proof (B 4%nat ltac:(lia)) as B4. pose proof (B 5%nat ltac:(lia)) as B5. pose proof (B 6%nat ltac:(lia)) as B6. pose proof (B 7%nat ltac:(lia)) as B7.
  assert (S : forall n i k v b, decode_bit p i = Some b -> 0 <= b <= 1 -> 0 <= k < 256 -> v = k / 2 + 128 * b -> decode_byte p (S n) i k = decode_byte p n (S i) v).
  { intros n i k v b E Hb Hk ->. cbn [decode_byte]. rewrite E. cbn [bind]. rewrite Z.shiftr_div_pow2, Z.shiftl_mul_pow2 by lia. change (2 ^ 1) with 2. change (2 ^ 7) with 128. unfold wrapu. change (2 ^ 8) with 256. rewrite Z.mod_small by lia. rewrite chku_ok by (change (2 ^ 8) with 256; Z.div_mod_to_equations; lia). cbn [bind]. f_equal. lia. }
  rewrite (S _ _ _ (128 * c 0%nat) (c 0%nat)); [|rewrite <- (proj2 (H 0%nat ltac:(lia))); f_equal; lia|lia|lia|reflexivity].
  rewrite (S _ _ _ (64 * c 0%nat + 128 * c 1%nat) (c 1%nat)); [|rewrite <- (proj2 (H 1%nat ltac:(lia))); f_equal; lia|lia|lia|Z.div_mod_to_equations; lia].
  rewrite (S _ _ _ (32 * c 0%nat + 64 * c 1%nat + 128 * c 2%nat) (c 2%nat)); [|rewrite <- (proj2 (H 2%nat ltac:(lia))); f_equal; lia|lia|lia|Z.div_mod_to_equations; lia].
  rewrite (S _ _ _ (16 * c 0%nat + 32 * c 1%nat + 64 * c 2%nat + 128 * c 3%nat) (c 3%nat)); [|rewrite <- (proj2 (H 3%nat ltac:(lia))); f_equal; lia|lia|lia|Z.div_mod_to_equations; lia].
  rewrite (S _ _ _ (8 * c 0%nat + 16 * c 1%nat + 32 * c 2%nat + 64 * c 3%nat + 128 * c 4%nat) (c 4%nat)); [|rewrite <- (proj2 (H 4%nat ltac:(lia))); f_equal; lia|lia|lia|Z.div_mod_to_equations; lia].
  rewrite (S _ _ _ (4 * c 0%nat + 8 * c 1%nat + 16 * c 2%nat + 32 * c 3%nat + 64 * c 4%nat + 128 * c 5%nat) (c 5%nat)); [|rewrite <- (proj2 (H 5%nat ltac:(lia))); f_equal; lia|lia|lia|Z.div_mod_to_equations; lia].
  rewrite (S _ _ _ (2 * c 0%nat + 4 * c 1%nat + 8 * c 2%nat + 16 * c 3%nat + 32 * c 4%nat + 64 * c 5%nat + 128 * c 6%nat) (c 6%nat)); [|rewrite <- (proj2 (H 6%nat ltac:(lia))); f_equal; lia|lia|lia|Z.div_mod_to_equations; lia].
  rewrite (S _ _ _ (c 0%nat + 2 * c 1%nat + 4 * c 2%nat + 8 * c 3%nat + 16 * c 4%nat + 32 * c 5%nat + 64 * c 6%nat + 128 * c 7%nat) (c 7%nat)); [|rewrite <- (proj2 (H 7%nat ltac:(lia))); f_equal; lia|lia|lia|Z.div_mod_to_equations; lia].
  reflexivity.
Qed.
Lemma decode_total p : (forall j, 0 <= at_ p j <= 100000) -> exists k, decode p = Some k /\ length k = 32%nat /\ bytes k.
Proof.
  intros H. unfold decode. destruct (map_opt_nth 0%nat 0 (fun j => decode_byte p 8 (8 * j) 0) (fun _ z => is_byte z) (seq 0 32)) as [k [K1 [K2 K3]]].
  - intros i Hi. rewrite seq_length in Hi. rewrite seq_nth by exact Hi. set (c := fun k => if dist p (8 * i + k) + dist p (8 * i + k + 256) + dist p (8 * i + k + 512) + dist p (8 * i + k + 768) <? q then 1 else 0).
    assert (C : forall k, 0 <= c k <= 1) by (intros k; unfold c; destruct (_ <? q); lia).
    eexists. split; [apply (decode_byte_ok p (0 + i) c); intros k Hk; split; [apply C|apply decode_bit_ok; exact H]|].
    unfold is_byte. pose proof (C 0%nat). pose proof (C 1%nat). pose proof (C 2%nat). pose proof (C 3%nat). pose proof (C 4%nat). pose proof (C 5%nat). pose proof (C 6%nat). pose proof (C 7%nat). lia.
  - rewrite seq_length in *. exists k. split; [exact K1|]. split; [exact K2|]. apply Forall_forall. intros x Hx. apply (In_nth _ _ 0) in Hx. destruct Hx as [i [Hi <-]]. apply K3. lia.
Qed.
Lemma byte_bits x : is_byte x -> let c k := Z.land (Z.shiftr x k) 1 in c 0 + 2 * c 1 + 4 * c 2 + 8 * c 3 + 16 * c 4 + 32 * c 5 + 64 * c 6 + 128 * c 7 = x.
Proof.
  intros H. cbv zeta. pose proof (byte_sweep (fun x => let c k := Z.land (Z.shiftr x k) 1 in c 0 + 2 * c 1 + 4 * c 2 + 8 * c 3 + 16 * c 4 + 32 * c 5 + 64 * c 6 + 128 * c 7 =? x) ltac:(vm_compute; reflexivity) x H) as E. apply Z.eqb_eq in E. exact E.
Qed.
(** the centred residue is no further from 0 than any other representative *)
Lemma dist_one p n : 0 <= p < q -> cgq p (6144 + n) -> Z.abs (p - 6144) <= Z.abs n.
Proof. intros H C. apply cgq_iff in C. destruct C as [k C]. unfold q in *. destruct (Z.eq_dec k 0) as [->|D]; lia. Qed.
Lemma dist_zero p n : 0 <= p < q -> cgq p n -> 6144 - Z.abs n <= Z.abs (p - 6144).
Proof. intros H C. apply cgq_iff in C. destruct C as [k C]. unfold q in *. destruct (Z.eq_dec k 0) as [->|D]; [lia|]. destruct (Z.eq_dec k 1) as [->|D1]; lia. Qed.
(** decoding recovers the key whenever the noise of each group of four coefficients sums to at most 12287 *)
Theorem decode_ok key p n : length key = 32%nat -> bytes key -> length p = N -> (forall j, (j < N)%nat -> 0 <= at_ p j < q) -> (forall j, (j < N)%nat -> cgq (at_ p j) (key_bit key j * 6144 + n j)) ->
  (forall i, (i < 256)%nat -> Z.abs (n i) + Z.abs (n (i + 256)%nat) + Z.abs (n (i + 512)%nat) + Z.abs (n (i + 768)%nat) <= 12287) -> decode p = Some key.
Proof.
  intros KL KB PL HP HC HN. unfold decode.
  assert (HB : forall j, 0 <= at_ p j <= 100000). { intros j. destruct (Nat.lt_ge_cases j N) as [L|L]; [specialize (HP j L); unfold q in HP; lia|]. unfold at_. rewrite nth_overflow by (rewrite PL; exact L). lia. }
  destruct (map_opt_nth 0%nat 0 (fun j => decode_byte p 8 (8 * j) 0) (fun i z => z = nth i key 0) (seq 0 32)) as [k [K1 [K2 K3]]].
  - intros i Hi. rewrite seq_length in Hi. rewrite seq_nth by exact Hi. rewrite Nat.add_0_l. exists (nth i key 0). split; [|reflexivity].
    set (x := nth i key 0). assert (HX : is_byte x) by (apply Forall_nth_ok; [exact KB|unfold is_byte; lia]).
    rewrite <- (byte_bits x HX) at 1. rewrite (decode_byte_ok p i (fun k => Z.land (Z.shiftr x (Z.of_nat k)) 1)); [reflexivity|].
    intros k Hk. assert (J : (8 * i + k < 256)%nat) by lia.
    assert (KBIT : forall a, (a < 4)%nat -> key_bit key (8 * i + k + 256 * a) = Z.land (Z.shiftr x (Z.of_nat k)) 1).
    { intros a Ha. unfold key_bit. replace ((8 * i + k + 256 * a) mod 256)%nat with (8 * i + k)%nat by (apply (Nat.mod_unique _ _ a); lia). replace ((8 * i + k) / 8)%nat with i by (apply (Nat.div_unique _ _ i k); lia). replace ((8 * i + k) mod 8)%nat with k by (apply (Nat.mod_unique _ _ i); lia). reflexivity. }
    set (b := Z.land (Z.shiftr x (Z.of_nat k)) 1) in *. assert (HBIT : 0 <= b <= 1) by (rewrite <- (KBIT 0%nat ltac:(lia)); apply key_bit_range). split; [exact HBIT|].
    rewrite decode_bit_ok by exact HB. f_equal. set (j := (8 * i + k)%nat) in *. pose proof (HN j J) as NN.
    pose proof (KBIT 0%nat ltac:(lia)) as Q0. pose proof (KBIT 1%nat ltac:(lia)) as Q1. pose proof (KBIT 2%nat ltac:(lia)) as Q2. pose proof (KBIT 3%nat ltac:(lia)) as Q3. cbn [Nat.mul Nat.add] in Q0, Q1, Q2, Q3. rewrite Nat.add_0_r in Q0.
    assert (P0 : forall d, (d <= 768)%nat -> (j + d < N)%nat) by (unfold N; intros; lia). pose proof (P0 0%nat ltac:(lia)) as L0. rewrite Nat.add_0_r in L0. pose proof (P0 256%nat ltac:(lia)) as L1. pose proof (P0 512%nat ltac:(lia)) as L2. pose proof (P0 768%nat ltac:(lia)) as L3.
    pose proof (HC j L0) as C0. pose proof (HC _ L1) as C1. pose proof (HC _ L2) as C2. pose proof (HC _ L3) as C3. rewrite Q0 in C0. rewrite Q1 in C1. rewrite Q2 in C2. rewrite Q3 in C3. pose proof (HP j L0) as R0. pose proof (HP _ L1) as R1. pose proof (HP _ L2) as R2. pose proof (HP _ L3) as R3. unfold dist.
    assert (BC : b = 0 \/ b = 1) by lia. destruct BC as [BC|BC]; rewrite BC in *.
    + rewrite ?Z.mul_0_l, ?Z.add_0_l in C0, C1, C2, C3. pose proof (dist_zero _ _ R0 C0). pose proof (dist_zero _ _ R1 C1). pose proof (dist_zero _ _ R2 C2). pose proof (dist_zero _ _ R3 C3). destruct (Z.ltb_spec (Z.abs (at_ p j - 6144) + Z.abs (at_ p (j + 256) - 6144) + Z.abs (at_ p (j + 512) - 6144) + Z.abs (at_ p (j + 768) - 6144)) q); [unfold q in *; lia|reflexivity].
    + rewrite ?Z.mul_1_l in C0, C1, C2, C3. pose proof (dist_one _ _ R0 C0). pose proof (dist_one _ _ R1 C1). pose proof (dist_one _ _ R2 C2). pose proof (dist_one _ _ R3 C3). destruct (Z.ltb_spec (Z.abs (at_ p j - 6144) + Z.abs (at_ p (j + 256) - 6144) + Z.abs (at_ p (j + 512) - 6144) + Z.abs (at_ p (j + 768) - 6144)) q); [reflexivity|unfold q in *; lia].
  - rewrite K1. f_equal. rewrite seq_length in *. apply nth_ext_Z; [congruence|]. intros i Hi. apply K3. lia.
Qed.
