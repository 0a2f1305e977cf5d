(** NewHope: noise, the public polynomial, and the three API functions. *)
From Verif Require Import Base.Word Base.Arr Model.Sha2 Model.Sha3 Model.Rand Model.NhsTables Model.Nhs Spec.Bytes Spec.Sha3Spec Spec.NhsSpec Proof.Sha3Block Proof.Sha3Stream Proof.RandProof Proof.NhsRed Proof.NhsNtt Proof.NhsRing Proof.NhsCodec.
From Coq Require Import Lia Setoid Morphisms.

(** ** the roots *)
Fixpoint pows (n : nat) (x : Z) : list Z := match n with O => [] | S n => x :: pows n (x * 7 mod q) end.
Lemma pows_ok : forall n x k, (k < n)%nat -> 0 <= x < q -> nth k (pows n x) 0 = (x * 7 ^ Z.of_nat k) mod q.
Proof.
  induction n as [|n IH]; intros x k Hk Hx; [lia|]. destruct k as [|k]; cbn [pows nth]; [rewrite Z.mul_1_r, Z.mod_small by exact Hx; reflexivity|].
  rewrite IH by (try lia; apply Z.mod_pos_bound; reflexivity). rewrite Z.mul_mod_idemp_l by (unfold q; lia). rewrite Nat2Z.inj_succ, Z.pow_succ_r by lia. f_equal. ring.
Qed.
Lemma root_check : (let t := pows 2048 1 in forallb (fun p => (cc (1024 + p)) mod q =? nth (2 * rev_bits 10 p + 1) t 0) (seq 0 1024)) = true. Proof. vm_compute. reflexivity. Qed.
Lemma rev_bits_lt : forall n p, (rev_bits n p < 2 ^ n)%nat.
Proof. induction n as [|n IH]; intros p; cbn [rev_bits Nat.pow]; [lia|]. specialize (IH (p / 2)%nat). pose proof (Nat.mod_upper_bound p 2 ltac:(lia)). assert (p mod 2 = 0 \/ p mod 2 = 1)%nat as [-> | ->] by lia; lia. Qed.
Lemma root_ok p : (p < N)%nat -> cgq (zeta p) (root p).
Proof.
  intros H. pose proof root_check as C. rewrite forallb_forall in C. specialize (C p). rewrite Z.eqb_eq in C. assert (I : In p (seq 0 1024)) by (apply in_seq; unfold N in H; lia). specialize (C I). pose proof (rev_bits_lt 10 p) as R. change (2 ^ 10)%nat with 1024%nat in R.
  rewrite pows_ok in C by (unfold q; lia). rewrite Z.mul_1_l in C. unfold zeta, root. rewrite <- C. apply cgq_mod. rewrite Z.mod_mod by (unfold q; lia). reflexivity.
Qed.
Lemma pw_pow x k : pw x k = x ^ Z.of_nat k.
Proof. induction k as [|k IH]; [reflexivity|]. cbn [pw]. rewrite IH, Nat2Z.inj_succ, Z.pow_succ_r by lia. reflexivity. Qed.
Lemma ev_value a p : (p < N)%nat -> cgq (ev a p) (value a p).
Proof. intros H. unfold ev, value. apply sum_cg. intros k _. rewrite <- pw_pow, (root_ok p H). reflexivity. Qed.

(** ** noise *)
Definition bits (n : nat) (x : Z) : Z := sum (fun i => Z.land (Z.shiftr x (Z.of_nat i)) 1) n.
Lemma land1 x : 0 <= Z.land x 1 <= 1.
Proof. pose proof (land_mask x 1 ltac:(lia)) as M. change (2 ^ 1 - 1) with 1 in M. change (2 ^ 1) with 2 in M. rewrite M. pose proof (Z.mod_pos_bound x 2 ltac:(lia)). lia. Qed.
Lemma bits_S n x : bits (S n) x = Z.land x 1 + bits n (Z.shiftr x 1).
Proof.
  unfold bits. change (S n) with (1 + n)%nat. rewrite sum_split. cbn [sum]. rewrite Z.shiftr_0_r, Z.add_0_l. f_equal. apply sum_ext. intros i _. rewrite Z.shiftr_shiftr by lia. do 2 f_equal. lia.
Qed.
Lemma bit_diff_ok : forall n n1 n2 r, Z.abs r + Z.of_nat n < 1000 -> bit_diff n n1 n2 r = Some (r + bits n n1 - bits n n2).
Proof.
  induction n as [|n IH]; intros n1 n2 r H; [cbn [bit_diff]; unfold bits; cbn [sum]; apply (f_equal Some); lia|]. cbn [bit_diff]. pose proof (land1 n1). pose proof (land1 n2).
  rewrite sub_ok by (zc; lia). cbn [bind]. rewrite add_ok by (zc; lia). cbn [bind]. rewrite IH by lia. rewrite !bits_S. apply (f_equal Some). ring.
Qed.
Lemma ones8_bits b : ones8 b = bits 8 b.
Proof. unfold ones8, bits. cbn [fold_right sum Z.of_nat Pos.of_succ_nat Pos.succ]. ring. Qed.
Lemma ones8_range b : 0 <= ones8 b <= 8.
Proof. rewrite ones8_bits. unfold bits. cbn [sum]. pose proof (land1 (Z.shiftr b (Z.of_nat 0))). pose proof (land1 (Z.shiftr b (Z.of_nat 1))). pose proof (land1 (Z.shiftr b (Z.of_nat 2))). pose proof (land1 (Z.shiftr b (Z.of_nat 3))). pose proof (land1 (Z.shiftr b (Z.of_nat 4))). pose proof (land1 (Z.shiftr b (Z.of_nat 5))). pose proof (land1 (Z.shiftr b (Z.of_nat 6))). pose proof (land1 (Z.shiftr b (Z.of_nat 7))). lia. Qed.
Lemma bits_16 a b : is_byte a -> is_byte b -> bits 16 (a + Z.shiftl b 8) = ones8 a + ones8 b.
Proof.
  intros A B. rewrite !ones8_bits. unfold is_byte in *. rewrite Z.shiftl_mul_pow2 by lia. change (2 ^ 8) with 256. unfold bits. change 16%nat with (8 + 8)%nat. rewrite sum_split. f_equal; apply sum_ext; intros i Hi.
  - assert (M : forall x, Z.land x 1 = x mod 2) by (intros x; exact (land_mask x 1 ltac:(lia))). rewrite !M, !Z.shiftr_div_pow2 by lia.
    replace (a + b * 256) with (a + (b * 2 ^ (7 - Z.of_nat i) * 2) * 2 ^ Z.of_nat i).
    + rewrite Z.div_add by (pose proof (pow2_pos (Z.of_nat i) ltac:(lia)); lia). rewrite Z.mod_add by lia. reflexivity.
    + replace 256 with (2 ^ (7 - Z.of_nat i) * 2 * 2 ^ Z.of_nat i); [ring|]. change 2 with (2 ^ 1) at 2. rewrite <- !Z.pow_add_r by lia. replace (7 - Z.of_nat i + 1 + Z.of_nat i) with 8 by lia. reflexivity.
  - rewrite Nat2Z.inj_add, <- Z.shiftr_shiftr by lia. do 2 f_equal. change (Z.of_nat 8) with 8. rewrite Z.shiftr_div_pow2 by lia. change (2 ^ 8) with 256. rewrite Z.div_add, Z.div_small by lia. lia.
Qed.
Lemma getbytes_app bd a : forall b g, getbytes bd (a + b) g = (x <- getbytes bd a g ;; y <- getbytes bd b (snd x) ;; Some (fst x ++ fst y, snd y)).
Proof.
  induction a as [|a IH]; intros b g; cbn [getbytes Nat.add]; [cbn [bind fst snd]; destruct (getbytes bd b g) as [[? ?]|]; reflexivity|].
  destruct (getbyte bd g) as [[x g1]|]; cbn [bind fst snd]; [|reflexivity]. rewrite IH. destruct (getbytes bd a g1) as [[xs g2]|]; cbn [bind fst snd]; [|reflexivity]. destruct (getbytes bd b g2) as [[ys g3]|]; reflexivity.
Qed.
Lemma getbytes_sane bd : forall n g, sane g -> exists bs g', getbytes bd n g = Some (bs, g') /\ bytes bs /\ length bs = n /\ sane g'.
Proof.
  induction n as [|n IH]; intros g S; cbn [getbytes]; [exists [], g; repeat split; try apply S; constructor|].
  destruct (getbyte_sane bd g S) as [x [g1 [E [X S1]]]]. rewrite E. cbn [bind fst snd]. destruct (IH g1 S1) as [bs [g2 [E2 [B2 [L2 S2]]]]]. rewrite E2. cbn [bind fst snd]. exists (x :: bs), g2. split; [reflexivity|]. split; [constructor; assumption|]. split; [cbn [length]; lia|exact S2].
Qed.
Definition noisy (l : list Z) (f : poly) : Prop := length l = N /\ forall i, (i < N)%nat -> at_ l i = q + f i /\ -16 <= f i <= 16.
Lemma error_loop_ok bd : forall n g, sane g -> exists bs g' l, getbytes bd (4 * n) g = Some (bs, g') /\ bytes bs /\ length bs = (4 * n)%nat /\ sane g' /\ error_loop bd n g = Some (l, g') /\ length l = n /\
  forall i, (i < n)%nat -> at_ l i = q + noise bs i /\ -16 <= noise bs i <= 16.
Proof.
  induction n as [|n IH]; intros g S.
  - exists [], g, []. cbn [getbytes error_loop Nat.mul length]. split; [reflexivity|]. split; [constructor|]. split; [reflexivity|]. split; [exact S|]. split; [reflexivity|]. split; [reflexivity|]. intros i Hi. lia.
  - replace (4 * Datatypes.S n)%nat with (4 + 4 * n)%nat by lia. rewrite getbytes_app. cbn [error_loop]. unfold error_one. cbn [getbytes].
    destruct (getbyte_sane bd g S) as [a [g1 [E1 [A S1]]]]. rewrite E1. cbn [bind fst snd]. destruct (getbyte_sane bd g1 S1) as [b [g2 [E2 [B S2]]]]. rewrite E2. cbn [bind fst snd].
    destruct (getbyte_sane bd g2 S2) as [c [g3 [E3 [C S3]]]]. rewrite E3. cbn [bind fst snd]. destruct (getbyte_sane bd g3 S3) as [d [g4 [E4 [D S4]]]]. rewrite E4. cbn [bind fst snd].
    destruct (IH g4 S4) as [bs [g' [l [G1 [G2 [G3 [G4 [G5 [G6 G7]]]]]]]]]. rewrite G1. cbn [bind fst snd app].
    pose proof (bits_16 a b A B) as Q1. pose proof (bits_16 c d C D) as Q2. unfold is_byte in *. rewrite !add_ok by (rewrite Z.shiftl_mul_pow2 by lia; zc; lia). cbn [bind]. rewrite bit_diff_ok by (cbn; lia). cbn [bind]. rewrite Q1, Q2.
    pose proof (ones8_range a). pose proof (ones8_range b). pose proof (ones8_range c). pose proof (ones8_range d). change PRIME with q. rewrite add_ok by (unfold q; zc; lia). cbn [bind fst snd]. rewrite G5. cbn [bind fst snd].
    exists (a :: b :: c :: d :: bs), g'. eexists. split; [reflexivity|]. split; [repeat (constructor; [assumption|]); exact G2|]. split; [cbn [length]; lia|]. split; [exact G4|]. split; [reflexivity|]. split; [cbn [length]; lia|].
    intros i Hi. destruct i as [|i].
    + unfold at_, noise, at_. cbn [nth Nat.mul Nat.add]. lia.
    + specialize (G7 i ltac:(lia)). assert (E : noise (a :: b :: c :: d :: bs) (Datatypes.S i) = noise bs i). { unfold noise. replace (4 * Datatypes.S i)%nat with (4 + 4 * i)%nat by lia. unfold at_. cbn [Nat.add]. rewrite ?Nat.add_succ_r, ?Nat.add_0_r. reflexivity. }
      rewrite E. unfold at_ in *. cbn [nth]. exact G7.
Qed.
Definition NL : nat := 4096.
Lemma error_ok bd g : sane g -> exists bs g' l, getbytes bd NL g = Some (bs, g') /\ bytes bs /\ length bs = NL /\ sane g' /\ Nhs.error bd g = Some (l, g') /\ noisy l (noise bs).
Proof. intros S. exact (error_loop_ok bd DEGREE g S). Qed.
#[global] Opaque NL.
Lemma noisy_bnd l f : noisy l f -> bnd 500000 l.
Proof. intros [L H]. split; [exact L|]. intros p Hp. destruct (H p Hp) as [E R]. rewrite E. unfold q. lia. Qed.
Lemma noisy_ev l f p : noisy l f -> cgq (ev (of_list l) p) (ev f p).
Proof. intros [L H]. apply ev_ext. intros i Hi. unfold of_list. rewrite (proj1 (H i Hi)). apply cgq_iff. exists 1. lia. Qed.
Lemma ntt_noisy l f : noisy l f -> exists y, ntt l = Some y /\ bnd (21 * q + 2) y /\ forall p, (p < N)%nat -> cgq (at_ y p) (RR * ev f p).
Proof. intros H. destruct (ntt_ok l (noisy_bnd _ _ H)) as [y [Y1 [Y2 Y3]]]. exists y. split; [exact Y1|]. split; [exact Y2|]. intros p Hp. rewrite (Y3 p Hp), (noisy_ev _ _ p H). reflexivity. Qed.

(** ** hashing *)
Lemma squeeze_out_bytes r : forall f n A, bytes (squeeze_out f r n A).
Proof.
  induction f as [|f IH]; intros n A; cbn [squeeze_out]; [constructor|]. apply Forall_app. split; [|destruct (n <=? r)%nat; [constructor|apply IH]].
  apply Forall_forall. intros x Hx. apply in_map_iff in Hx. destruct Hx as [k [<- _]]. unfold state_byte. apply Z.mod_pos_bound. reflexivity.
Qed.
Lemma squeeze_out_len r : (1 <= r)%nat -> forall f n A, (n < f)%nat -> length (squeeze_out f r n A) = n.
Proof. intros Hr. induction f as [|f IH]; intros k A H; [lia|]. cbn [squeeze_out]. rewrite app_length, map_length, seq_length. destruct (Nat.leb_spec k r); [cbn [length]; lia|rewrite IH by lia; lia]. Qed.
Lemma hash32_ok bd m : bytes m -> length m = 32%nat -> hash32 bd m = Some (SHA3 32 m) /\ bytes (SHA3 32 m) /\ length (SHA3 32 m) = 32%nat.
Proof.
  intros B L. split; [|split; [apply squeeze_out_bytes|apply squeeze_out_len; lia]]. unfold hash32, Sha3.new. change 32 with (Z.of_nat 32) at 1. destruct (init_ok bd 32 ltac:(lia)) as [t [-> I]]. cbn [bind].
  assert (Hr : (1 <= 200 - 2 * 32 <= 200)%nat) by lia. destruct (process_all_ok _ Hr _ bd m [] t I B) as [t2 [-> I2]]; [unfold fits3; rewrite L; reflexivity|]. cbn [bind app] in *.
  destruct (sponge_ok _ Hr _ bd 0x06 m t2 32 32 I2) as [t3 [s3 [E3 [R3 [L3 S3]]]]]; [lia|unfold fits3; rewrite L; reflexivity|lia|].
  unfold Sha3.hash. change 0x86 with (0x06 + 128). rewrite E3. cbn [bind]. rewrite L3, Nat2Z.id, S3. reflexivity.
Qed.
Lemma shake_ok bd m n : bytes m -> length m = 32%nat -> (0 < n)%nat -> (sh <- Sha3.new bd 16 ;; sh <- Sha3.process_all bd sh m ;; w <- Sha3.shake bd sh n n ;; Some (fst w)) = Some (SHAKE 16 m n).
Proof.
  intros B L Hn. unfold Sha3.new. change 16 with (Z.of_nat 16) at 1. destruct (init_ok bd 16 ltac:(lia)) as [t [-> I]]. cbn [bind].
  assert (Hr : (1 <= 200 - 2 * 16 <= 200)%nat) by lia. destruct (process_all_ok _ Hr _ bd m [] t I B) as [t2 [-> I2]]; [unfold fits3; rewrite L; reflexivity|]. cbn [bind app] in *.
  destruct (sponge_ok _ Hr _ bd 0x1f m t2 n n I2) as [t3 [s3 [E3 [R3 [L3 S3]]]]]; [lia|unfold fits3; rewrite L; reflexivity|lia|].
  unfold Sha3.shake. change 0x9f with (0x1f + 128). rewrite E3. cbn [bind]. rewrite S3. reflexivity.
Qed.
Lemma parse_one_ok h i : (forall j, is_byte (at_ h j)) -> exists z, parse_one h i = Some z /\ 0 <= z <= q + 3000 /\
  cgq z (RR * (((at_ h (4 * i) mod 128 * 256 + at_ h (4 * i + 1)) * 256 + at_ h (4 * i + 2)) * 256 + at_ h (4 * i + 3))).
Proof.
  intros H. unfold parse_one. cbv zeta. cbn [bind]. change 127 with (2 ^ 7 - 1). rewrite land_mask by lia. change (2 ^ 7) with 128.
  pose proof (H (4 * i + 1)%nat) as H1. pose proof (H (4 * i + 2)%nat) as H2. pose proof (H (4 * i + 3)%nat) as H3. unfold is_byte in *. generalize dependent (at_ h (4 * i + 1)). generalize dependent (at_ h (4 * i + 2)). generalize dependent (at_ h (4 * i + 3)).
  pose proof (Z.mod_pos_bound (at_ h (4 * i)) 128 ltac:(reflexivity)) as H0. revert H0. generalize (at_ h (4 * i) mod 128). intros a H0 d H3 c H2 b H1.
  rewrite Z.shiftl_mul_pow2 by lia. change (2 ^ 8) with 256. rewrite wrap_id by (try lia; change (2 ^ (32 - 1)) with 2147483648; lia). rewrite add_ok by (zc; lia). cbn [bind].
  rewrite Z.shiftl_mul_pow2 by lia. change (2 ^ 8) with 256. rewrite wrap_id by (try lia; change (2 ^ (32 - 1)) with 2147483648; lia). rewrite add_ok by (zc; lia). cbn [bind].
  rewrite Z.shiftl_mul_pow2 by lia. change (2 ^ 8) with 256. rewrite wrap_id by (try lia; change (2 ^ (32 - 1)) with 2147483648; lia). rewrite add_ok by (zc; lia). cbn [bind].
  set (x := ((a * 256 + b) * 256 + c) * 256 + d). assert (X : 0 <= x < 2147483648) by (unfold x; lia). destruct (nres_spec x) as [z [E [C R]]]; [change (2 ^ 31) with 2147483648; exact X|].
  exists z. split; [exact E|]. split; [|exact C]. assert (x * R2MODP / RR <= 2831) by (apply Z.lt_succ_r, Z.div_lt_upper_bound; [reflexivity|unfold R2MODP, RR; change (2 ^ 32) with 4294967296; lia]). lia.
Qed.
Lemma parse_ok bd seed : bytes seed -> length seed = 32%nat -> exists l, parse bd seed = Some l /\ bnd (q + 3000) l /\ forall p, (p < N)%nat -> cgq (at_ l p) (RR * public_value seed p).
Proof.
  intros B L. unfold parse. pose proof (shake_ok bd seed (4 * DEGREE) B L) as SH. assert (D : (0 < 4 * DEGREE)%nat) by (unfold DEGREE; lia). specialize (SH D).
  destruct (Sha3.new bd 16) as [s1|]; cbn [bind] in *; [|discriminate]. destruct (Sha3.process_all bd s1 seed) as [s2|]; cbn [bind] in *; [|discriminate]. destruct (Sha3.shake bd s2 (4 * DEGREE) (4 * DEGREE)) as [[w s3]|]; cbn [bind fst] in *; [|discriminate]. injection SH as ->.
  assert (BB : forall j, is_byte (at_ (SHAKE 16 seed (4 * DEGREE)) j)) by (intros j; unfold at_; apply Forall_nth_ok; [apply squeeze_out_bytes|unfold is_byte; lia]).
  change (4 * DEGREE)%nat with 4096%nat in *.
  destruct (map_opt_nth 0%nat 0 (parse_one (SHAKE 16 seed 4096)) (fun i z => 0 <= z <= q + 3000 /\ cgq z (RR * public_value seed i)) (seq 0 DEGREE)) as [l [L1 [L2 L3]]].
  - rewrite seq_length. intros i Hi. rewrite seq_nth by exact Hi. exact (parse_one_ok _ i BB).
  - rewrite seq_length in *. exists l. split; [exact L1|]. split; [split; [exact L2|intros p Hp; apply (L3 p Hp)]|intros p Hp; apply (L3 p Hp)].
Qed.

(** ** polynomial operations *)
Lemma poly_mul_ok x y Bx By (X Y : nat -> Z) : bnd Bx x -> bnd By y -> Bx < 2 ^ 31 -> By < 2 ^ 29 -> Bx * By <= RR -> (forall p, (p < N)%nat -> cgq (at_ x p) (RR * X p)) -> (forall p, (p < N)%nat -> cgq (at_ y p) (RR * Y p)) ->
  exists z, poly_mul x y = Some z /\ bnd (q + 1) z /\ forall p, (p < N)%nat -> cgq (at_ z p) (RR * (X p * Y p)).
Proof.
  intros [LX HX] [LY HY] B1 B2 BB CX CY. destruct (map2_opt_nth modmul (fun p z => 0 <= z <= q + 1 /\ cgq z (RR * (X p * Y p))) x y) as [z [Z1 [Z2 Z3]]].
  - congruence.
  - rewrite LX. intros p Hp. specialize (HX p Hp). specialize (HY p Hp). destruct (modmul_rep (at_ x p) (at_ y p) 1 (X p) (Y p)) as [z [E [C R]]]; try lia; [|apply CX; exact Hp|apply CY; exact Hp|].
    + rewrite Z.mul_1_l. apply Z.le_trans with (Bx * By); [apply Z.mul_le_mono_nonneg; lia|exact BB].
    + exists z. auto.
  - rewrite LX in *. exists z. split; [exact Z1|]. split; [split; [exact Z2|intros p Hp; apply (Z3 p Hp)]|intros p Hp; apply (Z3 p Hp)].
Qed.
Lemma poly_add_ok x y Bx By : bnd Bx x -> bnd By y -> Bx + By < 2 ^ 31 -> exists z, poly_add x y = Some z /\ bnd (Bx + By) z /\ forall p, (p < N)%nat -> at_ z p = at_ x p + at_ y p.
Proof.
  intros [LX HX] [LY HY] BB. destruct (map2_opt_nth add32 (fun p z => z = at_ x p + at_ y p) x y) as [z [Z1 [Z2 Z3]]].
  - congruence.
  - rewrite LX. intros p Hp. specialize (HX p Hp). specialize (HY p Hp). exists (at_ x p + at_ y p). split; [apply add_ok; zc; lia|reflexivity].
  - rewrite LX in *. exists z. split; [exact Z1|]. split; [|exact Z3]. split; [exact Z2|]. intros p Hp. rewrite (Z3 p Hp). specialize (HX p Hp). specialize (HY p Hp). lia.
Qed.
Lemma hard_reduce_ok x B : bnd B x -> B < 2 ^ 31 -> exists y, poly_hard_reduce x = Some y /\ bnd (q - 1) y /\ forall p, (p < N)%nat -> cgq (at_ y p) (at_ x p).
Proof.
  intros HX HB. destruct (map_bnd (fun x => e <- modmul x ONE ;; fix_up e) x B (fun v z => 0 <= z <= q - 1 /\ cgq z v) HX) as [y [Y1 [Y2 Y3]]].
  - intros v Hv. zc. destruct (modmul_spec v ONE 6000) as [z [E [C R]]]; [zc; lia|change (2 ^ 29) with 536870912; unfold ONE; lia|unfold ONE, RR; change (2 ^ 32) with 4294967296; lia|].
    rewrite E. cbn [bind]. rewrite fix_up_spec by (unfold q in *; lia). exists (z mod q). split; [reflexivity|]. pose proof (Z.mod_pos_bound z q ltac:(reflexivity)). split; [lia|]. apply cancelR. transitivity (z * RR); [apply cgq_mul; [|reflexivity]; apply cgq_mod; rewrite Z.mod_mod by (unfold q; lia); reflexivity|].
    rewrite C. apply cgq_mul; [reflexivity|]. apply cgq_mod. reflexivity.
  - exists y. split; [exact Y1|]. split; [split; [exact Y2|intros p Hp; apply (Y3 p Hp)]|intros p Hp; apply (Y3 p Hp)].
Qed.
Lemma redc_it_ok x (X : nat -> Z) : bnd (q - 1) x -> (forall p, (p < N)%nat -> cgq (at_ x p) (RR * X p)) -> exists y, redc_it x = Some y /\ bnd (q - 1) y /\ forall p, (p < N)%nat -> cgq (at_ y p) (X p).
Proof.
  intros HX C. destruct HX as [L HX]. destruct (map_opt_nth 0 0 (fun x => redc (as_u64 x)) (fun p z => 0 <= z <= q - 1 /\ cgq z (X p)) x) as [y [Y1 [Y2 Y3]]].
  - rewrite L. intros p Hp. destruct (redc_small (nth p x 0) (X p)) as [z [E [C1 R]]]; [specialize (HX p Hp); unfold at_ in HX; lia|apply C; exact Hp|]. exists z. split; [exact E|]. split; [lia|exact C1].
  - rewrite L in *. exists y. split; [exact Y1|]. split; [split; [exact Y2|intros p Hp; apply (Y3 p Hp)]|intros p Hp; apply (Y3 p Hp)].
Qed.
Lemma nres_it_ok x : bnd 16383 x -> exists y, nres_it x = Some y /\ bnd (q + 2) y /\ forall p, (p < N)%nat -> cgq (at_ y p) (RR * at_ x p).
Proof.
  intros HX. destruct (map_bnd nres x 16383 (fun v z => 0 <= z <= q + 2 /\ cgq z (RR * v)) HX) as [y [Y1 [Y2 Y3]]].
  - intros v Hv. destruct (nres_spec v) as [z [E [C R]]]; [change (2 ^ 31) with 2147483648; lia|]. exists z. split; [exact E|]. split; [|exact C].
    assert (v * R2MODP / RR <= 0) by (apply Z.lt_succ_r, Z.div_lt_upper_bound; [reflexivity|unfold R2MODP, RR; change (2 ^ 32) with 4294967296; lia]). lia.
  - exists y. split; [exact Y1|]. split; [split; [exact Y2|intros p Hp; apply (Y3 p Hp)]|intros p Hp; apply (Y3 p Hp)].
Qed.
Lemma bnd_b14 B x : B <= 16383 -> bnd B x -> Forall b14 x.
Proof. intros HB [L H]. apply Forall_forall. intros v Hv. apply (In_nth _ _ 0) in Hv. destruct Hv as [i [Hi <-]]. rewrite L in Hi. specialize (H i Hi). unfold at_ in H. unfold b14. zc. lia. Qed.
Lemma b14_bnd x : length x = N -> Forall b14 x -> bnd 16383 x.
Proof. intros L H. split; [exact L|]. intros p Hp. rewrite Forall_forall in H. assert (I : In (at_ x p) x) by (apply nth_In; rewrite L; exact Hp). specialize (H _ I). unfold b14 in H. zc. lia. Qed.
Lemma pack_len x : bnd (q - 1) x -> bytes (nhs_pack x) /\ length (nhs_pack x) = POLY_LEN /\ nhs_unpack (nhs_pack x) = x.
Proof.
  intros H. pose proof (bnd_b14 (q - 1) x ltac:(unfold q; lia) H) as F. assert (L : length x = (4 * 256)%nat) by (rewrite (proj1 H); reflexivity). destruct (pack_bytes 256 x L F) as [P1 P2]. split; [exact P1|]. split; [rewrite P2; reflexivity|]. exact (unpack_pack 256 x L F).
Qed.
Lemma unpack_bnd l : bytes l -> length l = POLY_LEN -> bnd 16383 (nhs_unpack l).
Proof. intros B L. destruct (unpack_range 256 l ltac:(rewrite L; reflexivity) B) as [F G]. apply b14_bnd; [rewrite G; reflexivity|exact F]. Qed.

(** ** the API *)
Lemma rep_any (x : list Z) p : cgq (at_ x p) (RR * (RI * at_ x p)).
Proof. rewrite Z.mul_assoc, (Z.mul_comm RR RI), RI_ok, Z.mul_1_l. reflexivity. Qed.
Lemma bnd_up B C x : B <= C -> bnd B x -> bnd C x.
Proof. intros H [L F]. split; [exact L|]. intros p Hp. specialize (F p Hp). lia. Qed.
Lemma server_1_ok bd g lsb lss : sane g -> (SB_LEN <= lsb)%nat -> (POLY_LEN <= lss)%nat ->
  exists seed eb sb g' b sv, getbytes bd (32 + (NL + NL)) g = Some (seed ++ eb ++ sb, g') /\ bytes (seed ++ eb ++ sb) /\ length seed = 32%nat /\ length eb = NL /\ length sb = NL /\ sane g' /\
  server_1 bd g lsb lss = Some (seed ++ nhs_pack b, nhs_pack sv, g') /\ bnd (q - 1) b /\ (forall p, (p < N)%nat -> cgq (at_ b p) (public_value seed p * ev (noise sb) p + ev (noise eb) p)) /\
  bnd (q - 1) sv /\ (forall p, (p < N)%nat -> cgq (at_ sv p) (RR * ev (noise sb) p)).
Proof.
  intros S L1 L2. unfold server_1. rewrite getbytes_app. destruct (getbytes_sane bd 32 g S) as [seed [g1 [E1 [B1 [N1 S1]]]]]. rewrite E1. cbn [bind fst snd]. rewrite getbytes_app.
  destruct (parse_ok bd seed B1 N1) as [A [PA [BA CA]]]. rewrite PA. cbn [bind].
  destruct (error_ok bd g1 S1) as [eb [g2 [e [E2 [B2 [N2 [S2 [Q2 Y2]]]]]]]]. rewrite Q2, E2. cbn [bind fst snd]. destruct (error_ok bd g2 S2) as [sb [g3 [s [E3 [B3 [N3 [S3 [Q3 Y3]]]]]]]]. rewrite Q3, E3. cbn [bind fst snd].
  destruct (ntt_noisy s _ Y3) as [sn [NS [BS CS]]]. rewrite NS. cbn [bind]. destruct (ntt_noisy e _ Y2) as [en [NE [BE CE]]]. rewrite NE. cbn [bind].
  destruct (poly_mul_ok A sn _ _ _ _ BA BS ltac:(zc; unfold q; lia) ltac:(change (2 ^ 29) with 536870912; unfold q; lia) ltac:(unfold q, RR; change (2 ^ 32) with 4294967296; lia) CA CS) as [b1 [M1 [M2 M3]]]. rewrite M1. cbn [bind].
  destruct (poly_add_ok b1 en _ _ M2 BE ltac:(zc; unfold q; lia)) as [b2 [A1 [A2 A3]]]. rewrite A1. cbn [bind].
  destruct (hard_reduce_ok b2 _ A2 ltac:(zc; unfold q; lia)) as [b3 [H1 [H2 H3]]]. rewrite H1. cbn [bind].
  destruct (redc_it_ok b3 (fun p => public_value seed p * ev (noise sb) p + ev (noise eb) p) H2) as [b [R1 [R2 R3]]].
  { intros p Hp. rewrite (H3 p Hp), (A3 p Hp), (M3 p Hp), (CE p Hp). apply cgq_eq. symmetry. apply Z.mul_add_distr_l. }
  rewrite R1. cbn [bind]. destruct (hard_reduce_ok sn _ BS ltac:(zc; unfold q; lia)) as [sv [V1 [V2 V3]]]. rewrite V1. cbn [bind].
  replace (lsb <? SB_LEN)%nat with false by (symmetry; apply Nat.ltb_ge; exact L1). replace (lss <? POLY_LEN)%nat with false by (symmetry; apply Nat.ltb_ge; exact L2). cbn [orb].
  exists seed, eb, sb, g3, b, sv. split; [reflexivity|]. split; [apply Forall_app; split; [exact B1|apply Forall_app; split; assumption]|]. repeat (split; [first [assumption|reflexivity]|]). intros p Hp. rewrite (V3 p Hp). exact (CS p Hp).
Qed.
Lemma client_ok bd h sb luc lkey : sane h -> bytes sb -> (SB_LEN <= length sb)%nat -> (UC_LEN <= luc)%nat -> (32 <= lkey)%nat ->
  exists sdb edb kb e2b h' u c cb, getbytes bd (NL + (NL + (32 + NL))) h = Some (sdb ++ edb ++ kb ++ e2b, h') /\ bytes (sdb ++ edb ++ kb ++ e2b) /\ length sdb = NL /\ length edb = NL /\ length kb = 32%nat /\ length e2b = NL /\ sane h' /\
  client bd h sb luc lkey = Some (nhs_pack u ++ cb, SHA3 32 (SHA3 32 kb), h') /\ bnd (q - 1) u /\ (forall p, (p < N)%nat -> cgq (at_ u p) (public_value (firstn 32 sb) p * ev (noise sdb) p + ev (noise edb) p)) /\
  compress (DEGREE / 8) c = Some cb /\ bnd (4 * q - 1) c /\
  (forall a, (forall p, (p < N)%nat -> cgq (at_ (nhs_unpack (firstn POLY_LEN (skipn 32 sb))) p) (ev a p)) -> forall j, (j < N)%nat -> cgq (at_ c j) (nega a (noise sdb) j + noise e2b j + key_bit (SHA3 32 kb) j * 6144)).
Proof.
  intros S B L L1 L2. unfold client. rewrite getbytes_app. destruct (error_ok bd h S) as [sdb [g1 [sd [E1 [B1 [N1 [S1 [Q1 Y1]]]]]]]]. rewrite Q1, E1. cbn [bind fst snd]. rewrite getbytes_app.
  destruct (error_ok bd g1 S1) as [edb [g2 [ed [E2 [B2 [N2 [S2 [Q2 Y2]]]]]]]]. rewrite Q2, E2. cbn [bind fst snd]. rewrite getbytes_app.
  destruct (ntt_noisy sd _ Y1) as [sn [NS [BS CS]]]. rewrite NS. cbn [bind]. destruct (ntt_noisy ed _ Y2) as [en [NE [BE CE]]]. rewrite NE. cbn [bind].
  replace (length sb <? SB_LEN)%nat with false by (symmetry; apply Nat.ltb_ge; exact L). cbv zeta.
  set (seed := firstn 32 sb). set (arr := firstn POLY_LEN (skipn 32 sb)).
  assert (BSd : bytes seed) by (apply Forall_firstn; exact B). assert (LSd : length seed = 32%nat) by (unfold seed; rewrite firstn_length; unfold SB_LEN in *; lia).
  assert (BAr : bytes arr) by (apply Forall_firstn, Forall_skipn; exact B). assert (LAr : length arr = POLY_LEN) by (unfold arr; rewrite firstn_length, skipn_length; unfold POLY_LEN, SB_LEN in *; lia).
  destruct (parse_ok bd seed BSd LSd) as [A [PA [BA CA]]]. rewrite PA. cbn [bind].
  destruct (poly_mul_ok A sn _ _ _ _ BA BS ltac:(zc; unfold q; lia) ltac:(change (2 ^ 29) with 536870912; unfold q; lia) ltac:(unfold q, RR; change (2 ^ 32) with 4294967296; lia) CA CS) as [b1 [M1 [M2 M3]]]. rewrite M1. cbn [bind].
  destruct (poly_add_ok b1 en _ _ M2 BE ltac:(zc; unfold q; lia)) as [b2 [A1 [A2 A3]]]. rewrite A1. cbn [bind].
  destruct (hard_reduce_ok b2 _ A2 ltac:(zc; unfold q; lia)) as [b3 [H1 [H2 H3]]]. rewrite H1. cbn [bind].
  destruct (getbytes_sane bd 32 g2 S2) as [kb [g3 [E3 [B3 [N3 S3]]]]]. rewrite E3. cbn [bind fst snd]. destruct (hash32_ok bd kb B3 N3) as [K1 [K2 K3]]. rewrite K1. cbn [bind].
  destruct (encode_ok (SHA3 32 kb)) as [k [C1 [C2 C3]]]. rewrite C1. cbn [bind].
  destruct (nres_it_ok (nhs_unpack arr) (unpack_bnd arr BAr LAr)) as [c1 [D1 [D2 D3]]]. rewrite D1. cbn [bind].
  destruct (poly_mul_ok c1 sn _ _ _ _ D2 BS ltac:(zc; unfold q; lia) ltac:(change (2 ^ 29) with 536870912; unfold q; lia) ltac:(unfold q, RR; change (2 ^ 32) with 4294967296; lia) D3 CS) as [c2 [F1 [F2 F3]]]. rewrite F1. cbn [bind].
  destruct (intt_ok c2 (bnd_up (q + 1) (q + 55) _ ltac:(lia) F2)) as [c3 [I1 [I2 [I3 I4]]]]. rewrite I1. cbn [bind].
  destruct (error_ok bd g3 S3) as [e2b [g4 [e2 [E4 [B4 [N4 [S4 [Q4 Y4]]]]]]]]. rewrite Q4, E4. cbn [bind fst snd].
  assert (BC3 : bnd (q - 1) c3) by (split; [exact I2|intros p Hp; specialize (I3 p Hp); lia]). assert (BE2 : bnd (q + 16) e2) by (split; [apply Y4|intros p Hp; destruct (proj2 Y4 p Hp) as [-> ?]; unfold q; lia]). assert (BK : bnd 6144 k) by (split; [exact C2|intros p Hp; rewrite (C3 p Hp); pose proof (key_bit_range (SHA3 32 kb) p); lia]).
  destruct (poly_add_ok c3 e2 _ _ BC3 BE2 ltac:(zc; unfold q; lia)) as [c4 [G1 [G2 G3]]]. rewrite G1. cbn [bind]. destruct (poly_add_ok c4 k _ _ G2 BK ltac:(zc; unfold q; lia)) as [c [J1 [J2 J3]]]. rewrite J1. cbn [bind].
  assert (BC : bnd (4 * q - 1) c) by (refine (bnd_up _ _ _ _ J2); unfold q; lia).
  destruct (compress_ok (DEGREE / 8) c) as [cb [P1 [P2 [P3 P4]]]]; [rewrite (proj1 BC); reflexivity|apply Forall_forall; intros v Hv; apply (In_nth _ _ 0) in Hv; destruct Hv as [i [Hi <-]]; rewrite (proj1 BC) in Hi; pose proof (proj2 BC i Hi) as HH; unfold at_ in HH; lia|]. rewrite P1. cbn [bind].
  destruct (hash32_ok bd _ K2 K3) as [KK _]. rewrite KK. cbn [bind].
  destruct (redc_it_ok b3 (fun p => public_value seed p * ev (noise sdb) p + ev (noise edb) p) H2) as [u [R1 [R2 R3]]].
  { intros p Hp. rewrite (H3 p Hp), (A3 p Hp), (M3 p Hp), (CE p Hp). apply cgq_eq. symmetry. apply Z.mul_add_distr_l. }
  rewrite R1. cbn [bind]. replace (lkey <? 32)%nat with false by (symmetry; apply Nat.ltb_ge; exact L2). replace (luc <? UC_LEN)%nat with false by (symmetry; apply Nat.ltb_ge; exact L1). cbn [orb].
  exists sdb, edb, kb, e2b, g4, u, c, cb. split; [reflexivity|]. split; [repeat (apply Forall_app; split); assumption|]. repeat (split; [first [assumption|reflexivity]|]).
  intros a Ha j Hj. rewrite (J3 j Hj), (G3 j Hj), (C3 j Hj). apply cgq_add; [|reflexivity]. apply cgq_add; [|rewrite (proj1 (proj2 Y4 j Hj)); apply cgq_iff; exists 1; lia].
  apply I4; [|exact Hj]. intros p Hp. rewrite (F3 p Hp). apply cgq_mul; [reflexivity|]. rewrite (ev_nega _ _ p Hp). apply cgq_mul; [exact (Ha p Hp)|reflexivity].
Qed.
Lemma server_2_ok bd ss uc lkey : bytes ss -> bytes uc -> (POLY_LEN <= length ss)%nat -> (UC_LEN <= length uc)%nat -> (32 <= lkey)%nat ->
  exists pl c key, length pl = N /\ (forall j, (j < N)%nat -> 0 <= at_ pl j < q) /\ decompress (firstn CC_LEN (skipn POLY_LEN uc)) = Some c /\ decode pl = Some key /\ length key = 32%nat /\ bytes key /\
  server_2 bd ss uc lkey = Some (SHA3 32 key) /\
  (forall a, (forall p, (p < N)%nat -> cgq (at_ (nhs_unpack (firstn POLY_LEN uc)) p * at_ (nhs_unpack (firstn POLY_LEN ss)) p) (RR * ev a p)) -> forall j, (j < N)%nat -> cgq (at_ pl j) (at_ c j - a j)).
Proof.
  intros Bs Bu Ls Lu Lk. unfold server_2. replace (length uc <? UC_LEN)%nat with false by (symmetry; apply Nat.ltb_ge; exact Lu). replace (length ss <? POLY_LEN)%nat with false by (symmetry; apply Nat.ltb_ge; exact Ls). replace (lkey <? 32)%nat with false by (symmetry; apply Nat.ltb_ge; exact Lk). cbv zeta.
  set (arr := firstn POLY_LEN uc). set (cs := firstn CC_LEN (skipn POLY_LEN uc)). set (sl := firstn POLY_LEN ss).
  assert (BAr : bytes arr) by (apply Forall_firstn; exact Bu). assert (LAr : length arr = POLY_LEN) by (unfold arr; rewrite firstn_length; unfold POLY_LEN, UC_LEN in *; lia).
  assert (BCs : bytes cs) by (apply Forall_firstn, Forall_skipn; exact Bu). assert (LCs : length cs = (3 * 128)%nat) by (unfold cs; rewrite firstn_length, skipn_length; unfold POLY_LEN, UC_LEN, CC_LEN in *; lia).
  assert (BSl : bytes sl) by (apply Forall_firstn; exact Bs). assert (LSl : length sl = POLY_LEN) by (unfold sl; rewrite firstn_length; unfold POLY_LEN, UC_LEN in *; lia).
  destruct (nres_it_ok (nhs_unpack arr) (unpack_bnd arr BAr LAr)) as [k1 [D1 [D2 D3]]]. rewrite D1. cbn [bind]. destruct (decompress_total 128 cs LCs BCs) as [c [C1 [C2 C3]]]. rewrite C1. cbn [bind].
  pose proof (unpack_bnd sl BSl LSl) as BS. destruct (poly_mul_ok k1 (nhs_unpack sl) _ _ _ (fun p => RI * at_ (nhs_unpack sl) p) D2 BS ltac:(zc; unfold q; lia) ltac:(change (2 ^ 29) with 536870912; unfold q; lia) ltac:(unfold q, RR; change (2 ^ 32) with 4294967296; lia) D3 (fun p _ => rep_any (nhs_unpack sl) p)) as [k2 [F1 [F2 F3]]]. rewrite F1. cbn [bind].
  destruct (intt_ok k2 (bnd_up (q + 1) (q + 55) _ ltac:(lia) F2)) as [k3 [I1 [I2 [I3 I4]]]]. rewrite I1. cbn [bind].
  assert (BC : bnd 10753 c) by (split; [rewrite C2; reflexivity|]; intros p Hp; rewrite Forall_forall in C3; apply C3; apply nth_In; rewrite C2; exact Hp).
  destruct (map2_opt_nth (fun x y => s <- add32 y PRIME ;; sub32 s x) (fun p z => z = at_ c p + q - at_ k3 p) k3 c) as [k4 [G1 [G2 G3]]].
  { rewrite I2, C2. reflexivity. }
  { rewrite I2. intros p Hp. specialize (I3 p Hp). pose proof (proj2 BC p Hp). change PRIME with q. exists (at_ c p + q - at_ k3 p). rewrite add_ok by (unfold q in *; zc; lia). cbn [bind]. rewrite sub_ok by (unfold q in *; zc; lia). split; reflexivity. }
  unfold poly_rsub. rewrite G1. cbn [bind]. rewrite I2 in *.
  assert (B4 : bnd (2 * q - 1) k4) by (split; [exact G2|]; intros p Hp; rewrite (G3 p Hp); specialize (I3 p Hp); pose proof (proj2 BC p Hp); unfold q in *; lia).
  destruct (map_bnd fix_up k4 _ (fun v z => z = v mod q) B4) as [pl [P1 [P2 P3]]]; [intros v Hv; exists (v mod q); split; [apply fix_up_spec; lia|reflexivity]|]. unfold poly_soft_reduce. rewrite P1. cbn [bind].
  assert (R : forall j, (j < N)%nat -> 0 <= at_ pl j < q) by (intros j Hj; rewrite (P3 j Hj); apply Z.mod_pos_bound; reflexivity).
  destruct (decode_total pl) as [key [K1 [K2 K3]]]. { intros j. destruct (Nat.lt_ge_cases j N) as [L|L]; [specialize (R j L); unfold q in R; lia|]. unfold at_. rewrite nth_overflow by (rewrite P2; exact L). lia. }
  rewrite K1. cbn [bind]. destruct (hash32_ok bd key K3 K2) as [KK _]. rewrite KK. cbn [bind].
  exists pl, c, key. repeat (split; [first [assumption|reflexivity]|]). intros a Ha j Hj. rewrite (P3 j Hj), (G3 j Hj).
  transitivity (at_ c j + q - at_ k3 j); [apply cgq_mod; rewrite Z.mod_mod by (unfold q; lia); reflexivity|]. rewrite (I4 a).
  - apply cgq_iff. exists 1. lia.
  - intros p Hp. rewrite (F3 p Hp), <- (Ha p Hp). transitivity (at_ (nhs_unpack arr) p * (RR * (RI * at_ (nhs_unpack sl) p))); [apply cgq_eq; generalize RR RI (at_ (nhs_unpack arr) p) (at_ (nhs_unpack sl) p); intros; ring|]. rewrite <- rep_any. reflexivity.
  - exact Hj.
Qed.
Definition cerr (x : Z) : Z := db (cb x) + (8 * x + 6144) / q / 8 * q - x.
Lemma cerr_ok x : 0 <= x -> -768 <= cerr x <= 768 /\ cgq (db (cb x)) (x + cerr x).
Proof.
  intros Hx. unfold cerr, db, cb. set (r := (8 * x + 6144) / q). pose proof (Z.div_mod (8 * x + 6144) q ltac:(discriminate)) as E1. pose proof (Z.mod_pos_bound (8 * x + 6144) q ltac:(reflexivity)) as B1. fold r in E1.
  pose proof (Z.div_mod r 8 ltac:(lia)) as E2. pose proof (Z.mod_pos_bound r 8 ltac:(lia)) as B2. set (b := r mod 8) in *. set (j := r / 8) in *.
  pose proof (Z.div_mod (b * q + 4) 8 ltac:(lia)) as E3. pose proof (Z.mod_pos_bound (b * q + 4) 8 ltac:(lia)) as B3. set (D := (b * q + 4) / 8) in *. unfold q in *. split; [lia|].
  apply cgq_iff. exists (- j). unfold q. lia.
Qed.
Lemma ring_swap (A S E D W : poly) j : (j < N)%nat ->
  cgq (nega (fun i => nega A S i + E i) D j - nega (fun i => nega A D i + W i) S j) (nega E D j - nega W S j).
Proof.
  intros Hj. refine (ev_inj (fun j => nega (fun i => nega A S i + E i) D j - nega (fun i => nega A D i + W i) S j) (fun j => nega E D j - nega W S j) _ j Hj).
  intros p Hp. rewrite !ev_sub. rewrite !(ev_nega _ _ p Hp), !ev_add, !(ev_nega _ _ p Hp). apply cgq_eq. generalize (ev A p) (ev S p) (ev E p) (ev D p) (ev W p). intros. ring.
Qed.
Theorem agreement bd bd' bd'' g h lsb lss luc lkey lkey' sb ss g' uc key h' : sane g -> sane h -> (32 <= lkey')%nat ->
  server_1 bd g lsb lss = Some (sb, ss, g') -> client bd' h sb luc lkey = Some (uc, key, h') ->
  exists seed eb sbs sdb edb kb e2b, getbytes bd (32 + (NL + NL)) g = Some (seed ++ eb ++ sbs, g') /\ getbytes bd' (NL + (NL + (32 + NL))) h = Some (sdb ++ edb ++ kb ++ e2b, h') /\
  length seed = 32%nat /\ length eb = NL /\ length sbs = NL /\ length sdb = NL /\ length edb = NL /\ length kb = 32%nat /\ length e2b = NL /\
  key = SHA3 32 (SHA3 32 kb) /\
  ((forall i, (i < 256)%nat -> let n j := Z.abs (nega (noise eb) (noise sdb) j - nega (noise edb) (noise sbs) j + noise e2b j) in
     n i + n (i + 256)%nat + n (i + 512)%nat + n (i + 768)%nat <= 9215) -> server_2 bd'' ss uc lkey' = Some key).
Proof.
  intros Sg Sh Lk ES EC.
  assert (LS : (SB_LEN <= lsb)%nat /\ (POLY_LEN <= lss)%nat).
  { unfold server_1 in ES. repeat match type of ES with (_ <- ?e ;; _) = _ => destruct e; cbn [bind] in ES; [|discriminate ES] end.
    destruct (lsb <? SB_LEN)%nat eqn:L1; [discriminate ES|]. destruct (lss <? POLY_LEN)%nat eqn:L2; [discriminate ES|]. apply Nat.ltb_ge in L1, L2. split; assumption. }
  destruct (server_1_ok bd g lsb lss Sg (proj1 LS) (proj2 LS)) as [seed [eb [sbs [g1 [b [sv [G1 [G2 [G3 [G4 [G5 [G6 [G7 [G8 [G9 [G10 G11]]]]]]]]]]]]]]]]. rewrite G7 in ES. injection ES as <- <- <-.
  assert (LC : (UC_LEN <= luc)%nat /\ (32 <= lkey)%nat).
  { unfold client in EC. clear G1. repeat match type of EC with (_ <- ?e ;; _) = _ => destruct e; cbn [bind] in EC; [|discriminate EC] | (if ?e then None else _) = _ => let E := fresh "L" in destruct e eqn:E; [discriminate EC|]; cbv zeta in EC end.
    apply Bool.orb_false_iff in L0. destruct L0 as [L1 L2]. apply Nat.ltb_ge in L1, L2. split; assumption. }
  destruct (pack_len b G8) as [PB [PL PU]]. apply Forall_app in G2. destruct G2 as [BSeed G2]. apply Forall_app in G2. destruct G2 as [BE BSb].
  assert (LSB : (SB_LEN <= length (seed ++ nhs_pack b))%nat) by (rewrite app_length, G3, PL; unfold SB_LEN, POLY_LEN; lia).
  destruct (client_ok bd' h (seed ++ nhs_pack b) luc lkey Sh ltac:(apply Forall_app; split; assumption) LSB (proj1 LC) (proj2 LC)) as [sdb [edb [kb [e2b [h1 [u [c [cs [C1 [C2 [C3 [C4 [C5 [C6 [C7 [C8 [C9 [C10 [C11 [C12 C13]]]]]]]]]]]]]]]]]]]].
  rewrite C8 in EC. injection EC as <- <- <-.
  assert (F1 : firstn 32 (seed ++ nhs_pack b) = seed) by (rewrite firstn_app, G3, Nat.sub_diag, firstn_O, app_nil_r; apply firstn_all2; lia).
  assert (F2 : firstn POLY_LEN (skipn 32 (seed ++ nhs_pack b)) = nhs_pack b) by (rewrite skipn_app, G3, Nat.sub_diag, skipn_all2 by lia; cbn [app skipn]; apply firstn_all2; rewrite PL; apply le_n).
  rewrite F1 in C10. rewrite F2, PU in C13.
  exists seed, eb, sbs, sdb, edb, kb, e2b. repeat (split; [first [assumption|reflexivity]|]). intros HN.
  destruct (pack_len sv G10) as [PB2 [PL2 PU2]]. destruct (pack_len u C9) as [PB3 [PL3 PU3]].
  destruct (compress_ok (DEGREE / 8) c) as [cb' [P1 [P2 [P3 P4]]]]; [rewrite (proj1 C12); reflexivity|apply Forall_forall; intros v Hv; apply (In_nth _ _ 0) in Hv; destruct Hv as [i [Hi <-]]; rewrite (proj1 C12) in Hi; pose proof (proj2 C12 i Hi) as HH; unfold at_ in HH; lia|].
  rewrite C11 in P1. injection P1 as <-.
  assert (LCS : length cs = CC_LEN) by (rewrite P3; reflexivity).
  destruct (server_2_ok bd'' (nhs_pack sv) (nhs_pack u ++ cs) lkey' PB2 ltac:(apply Forall_app; split; assumption) ltac:(rewrite PL2; apply le_n) ltac:(rewrite app_length, PL3, LCS; apply le_n) Lk) as [pl [c' [key [D1 [D2 [D3 [D4 [D5 [D6 [D7 D8]]]]]]]]]].
  rewrite D7. apply (f_equal Some). apply (f_equal (SHA3 32)).
  assert (F3 : firstn POLY_LEN (nhs_pack u ++ cs) = nhs_pack u) by (rewrite firstn_app, PL3, Nat.sub_diag, firstn_O, app_nil_r; apply firstn_all2; rewrite PL3; apply le_n).
  assert (F4 : firstn CC_LEN (skipn POLY_LEN (nhs_pack u ++ cs)) = cs) by (rewrite skipn_app, PL3, Nat.sub_diag, skipn_all2 by (rewrite PL3; apply le_n); cbn [app skipn]; apply firstn_all2; rewrite LCS; apply le_n).
  assert (F5 : firstn POLY_LEN (nhs_pack sv) = nhs_pack sv) by (apply firstn_all2; rewrite PL2; apply le_n).
  rewrite F4, P4 in D3. injection D3 as <-. rewrite F3, F5, PU2, PU3 in D8.
  destruct (ev_surj (public_value seed)) as [A HA].
  set (B := fun i => nega A (noise sbs) i + noise eb i). set (U := fun i => nega A (noise sdb) i + noise edb i).
  assert (HB : forall p, (p < N)%nat -> cgq (at_ b p) (ev B p)). { intros p Hp. unfold B. rewrite ev_add, (ev_nega _ _ p Hp), (HA p Hp). exact (G9 p Hp). }
  assert (HU : forall p, (p < N)%nat -> cgq (at_ u p) (ev U p)). { intros p Hp. unfold U. rewrite ev_add, (ev_nega _ _ p Hp), (HA p Hp). exact (C10 p Hp). }
  specialize (C13 B HB). specialize (D8 (nega U (noise sbs))).
  assert (KL : length (SHA3 32 kb) = 32%nat) by (apply squeeze_out_len; lia). assert (KB : bytes (SHA3 32 kb)) by apply squeeze_out_bytes.
  enough (DEC : decode pl = Some (SHA3 32 kb)) by congruence.
  apply (decode_ok (SHA3 32 kb) pl (fun j => nega (noise eb) (noise sdb) j - nega (noise edb) (noise sbs) j + noise e2b j + cerr (at_ c j))); try assumption.
  - intros j Hj. rewrite D8; [|intros p Hp; rewrite (HU p Hp), (G11 p Hp), (ev_nega _ _ p Hp); apply cgq_eq; generalize (ev U p) (ev (noise sbs) p) RR; intros; ring|exact Hj].
    assert (E : at_ (map (fun x => db (cb x)) c) j = db (cb (at_ c j))). { unfold at_. rewrite (nth_indep _ 0 (db (cb 0))) by (rewrite map_length, (proj1 C12); exact Hj). apply (map_nth (fun x => db (cb x))). }
    rewrite E. destruct (cerr_ok (at_ c j)) as [_ Q]; [apply (proj2 C12 j Hj)|]. rewrite Q. pose proof (ring_swap A (noise sbs) (noise eb) (noise sdb) (noise edb) j Hj) as RS. fold B U in RS.
    rewrite <- RS. rewrite (C13 j Hj) at 1. apply cgq_eq. generalize (nega B (noise sdb) j) (nega U (noise sbs) j) (noise e2b j) (key_bit (SHA3 32 kb) j) (cerr (at_ c j)). intros. ring.
  - intros i Hi. specialize (HN i Hi). cbv zeta beta in HN.
    assert (Q : forall d, (d <= 768)%nat -> -768 <= cerr (at_ c (i + d)) <= 768). { intros d Hd. apply cerr_ok. apply (proj2 C12 (i + d)%nat). unfold N. lia. }
    pose proof (Q 0%nat ltac:(lia)) as Q0. rewrite Nat.add_0_r in Q0. pose proof (Q 256%nat ltac:(lia)) as Q1. pose proof (Q 512%nat ltac:(lia)) as Q2. pose proof (Q 768%nat ltac:(lia)) as Q3. clear - HN Q0 Q1 Q2 Q3.
    revert HN Q0 Q1 Q2 Q3. generalize (cerr (at_ c i)) (cerr (at_ c (i + 256))) (cerr (at_ c (i + 512))) (cerr (at_ c (i + 768))).
    generalize (nega (noise eb) (noise sdb) i - nega (noise edb) (noise sbs) i + noise e2b i) (nega (noise eb) (noise sdb) (i + 256)%nat - nega (noise edb) (noise sbs) (i + 256)%nat + noise e2b (i + 256)%nat)
      (nega (noise eb) (noise sdb) (i + 512)%nat - nega (noise edb) (noise sbs) (i + 512)%nat + noise e2b (i + 512)%nat) (nega (noise eb) (noise sdb) (i + 768)%nat - nega (noise edb) (noise sbs) (i + 768)%nat + noise e2b (i + 768)%nat). intros. lia.
Qed.
