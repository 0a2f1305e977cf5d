(** GHASH of the model = GHASH of SP 800-38D (release builds) *)
From Verif Require Import Base.Word Base.Arr Model.Aes Model.Gcm Spec.Bytes Spec.AesSpec Spec.GcmSpec Proof.AesBase Proof.AesBlock.

(** ** words and bytes *)
Lemma gpack_os2ip a b c d : byte_ok a -> byte_ok b -> byte_ok c -> byte_ok d -> gpack [a; b; c; d] = os2ip [a; b; c; d].
Proof. intros. change (gpack [a; b; c; d]) with (pack [d; c; b; a]). rewrite pack_pk by assumption. unfold pk, os2ip. cbn [fold_left]. lia. Qed.
Lemma shr_byte w k : 0 <= k -> Z.land (Z.shiftr w k) 255 = w / 2 ^ k mod 256.
Proof. intros H. rewrite land255, Z.shiftr_div_pow2 by exact H. reflexivity. Qed.
Lemma gunpack_i2osp w : gunpack w = i2osp w 4.
Proof.
  unfold gunpack. cbn [i2osp app]. rewrite !shr_byte, land255 by lia. rewrite !Z.div_div by lia. reflexivity.
Qed.
Definition u32 (w : Z) : Prop := 0 <= w < 2 ^ 32.
Definition wv (l : list Z) : Z := fold_left (fun a w => 2 ^ 32 * a + w) l 0.
Lemma os2ip_words a b c d : u32 a -> u32 b -> u32 c -> u32 d ->
  os2ip (gunpack a ++ gunpack b ++ gunpack c ++ gunpack d) = wv [a; b; c; d].
Proof.
  intros Ha Hb Hc Hd. unfold u32 in *. rewrite !gunpack_i2osp, !os2ip_app, !app_length, !i2osp_length, !os2ip_i2osp.
  change (256 ^ Z.of_nat 4) with (2 ^ 32). rewrite !Z.mod_small by assumption. unfold wv. cbn [fold_left].
  change (256 ^ Z.of_nat (4 + (4 + 4))) with (2 ^ 96). change (256 ^ Z.of_nat (4 + 4)) with (2 ^ 64). change (256 ^ Z.of_nat 4) with (2 ^ 32). lia.
Qed.
Lemma words_i2osp a b c d : u32 a -> u32 b -> u32 c -> u32 d ->
  gunpack a ++ gunpack b ++ gunpack c ++ gunpack d = i2osp (wv [a; b; c; d]) 16.
Proof.
  intros Ha Hb Hc Hd. rewrite <- os2ip_words by assumption. symmetry.
  replace 16%nat with (length (gunpack a ++ gunpack b ++ gunpack c ++ gunpack d)) by (rewrite !app_length; reflexivity).
  apply i2osp_os2ip. rewrite !gunpack_i2osp. do 3 (apply Forall_app; split; [apply i2osp_bytes|]). apply i2osp_bytes.
Qed.
Lemma wv4_lxor a b c d a' b' c' d' : u32 a -> u32 b -> u32 c -> u32 d -> u32 a' -> u32 b' -> u32 c' -> u32 d' ->
  wv [Z.lxor a a'; Z.lxor b b'; Z.lxor c c'; Z.lxor d d'] = Z.lxor (wv [a; b; c; d]) (wv [a'; b'; c'; d']).
Proof.
  unfold u32. intros. unfold wv. cbn [fold_left].
  assert (G : forall x y l l', 0 <= l < 2 ^ 32 -> 0 <= l' < 2 ^ 32 -> Z.lxor (2 ^ 32 * x + l) (2 ^ 32 * y + l') = 2 ^ 32 * Z.lxor x y + Z.lxor l l').
  { intros. rewrite !(Z.add_comm (2 ^ 32 * _)). apply lxor_split; try assumption; lia. }
  rewrite !G by assumption. rewrite Z.mul_0_r. cbn [Z.add]. rewrite Z.lxor_0_l. reflexivity.
Qed.
Lemma wv4_range a b c d : u32 a -> u32 b -> u32 c -> u32 d -> 0 <= wv [a; b; c; d] < 2 ^ 128.
Proof.
  unfold u32, wv. cbn [fold_left]. intros. change (2 ^ 128) with (2 ^ 32 * (2 ^ 32 * (2 ^ 32 * 2 ^ 32))). change (2 ^ 32) with 4294967296 in *. lia.
Qed.

(** ** the table of shifted multiples *)
Lemma shl31 w : u32 w -> shl32 w 31 = (w mod 2) * 2 ^ 31.
Proof.
  intros H. unfold shl32, wrapu. rewrite Z.shiftl_mul_pow2 by lia. change (2 ^ 32) with (2 * 2 ^ 31). rewrite Z.mul_mod_distr_r by lia. reflexivity.
Qed.
Lemma half_u32 p w : u32 p -> u32 w -> Z.lor ((p mod 2) * 2 ^ 31) (Z.shiftr w 1) = (p mod 2) * 2 ^ 31 + w / 2.
Proof.
  unfold u32. intros Hp H. rewrite Z.shiftr_div_pow2 by lia. change (2 ^ 1) with 2. rewrite lor_disjoint' by (change (2 ^ 31) with 2147483648; change (2 ^ 32) with 4294967296 in H; pose proof (Z.div_mod w 2 ltac:(lia)); pose proof (Z.mod_pos_bound w 2 ltac:(lia)); lia).
  lia.
Qed.
Lemma next_row_ok a b c d : u32 a -> u32 b -> u32 c -> u32 d ->
  exists a' b' c' d', next_row [a; b; c; d] = [a'; b'; c'; d'] /\ u32 a' /\ u32 b' /\ u32 c' /\ u32 d' /\ wv [a'; b'; c'; d'] = gf_half (wv [a; b; c; d]).
Proof.
  intros Ha Hb Hc Hd. unfold next_row. cbn [row_shift]. rewrite !shl31 by assumption.
  rewrite !half_u32 by assumption. rewrite Z.lor_0_l, (Z.shiftr_div_pow2 a 1) by lia. change (2 ^ 1) with 2.
  assert (MD : forall x, u32 x -> 0 <= x mod 2 < 2 /\ x = 2 * (x / 2) + x mod 2 /\ 0 <= x / 2 < 2 ^ 31).
  { intros x Hx. unfold u32 in Hx. pose proof (Z.mod_pos_bound x 2 ltac:(lia)). pose proof (Z.div_mod x 2 ltac:(lia)). change (2 ^ 32) with 4294967296 in Hx. change (2 ^ 31) with 2147483648. lia. }
  destruct (MD a Ha) as [A1 [A2 A3]]. destruct (MD b Hb) as [B1 [B2 B3]]. destruct (MD c Hc) as [C1 [C2 C3]]. destruct (MD d Hd) as [D1 [D2 D3]].
  set (a2 := a / 2) in *. set (b2 := b / 2) in *. set (c2 := c / 2) in *. set (d2 := d / 2) in *.
  set (am := a mod 2) in *. set (bm := b mod 2) in *. set (cm := c mod 2) in *. set (dm := d mod 2) in *. clearbody a2 b2 c2 d2 am bm cm dm.
  assert (RB : u32 (am * 2 ^ 31 + b2)) by (unfold u32; change (2 ^ 32) with 4294967296 in *; change (2 ^ 31) with 2147483648 in *; lia).
  assert (RC : u32 (bm * 2 ^ 31 + c2)) by (unfold u32; change (2 ^ 32) with 4294967296 in *; change (2 ^ 31) with 2147483648 in *; lia).
  assert (RD : u32 (cm * 2 ^ 31 + d2)) by (unfold u32; change (2 ^ 32) with 4294967296 in *; change (2 ^ 31) with 2147483648 in *; lia).
  assert (RA : u32 a2) by (unfold u32; change (2 ^ 32) with 4294967296 in *; change (2 ^ 31) with 2147483648 in *; lia).
  assert (V : wv [a; b; c; d] = 2 * wv [a2; am * 2 ^ 31 + b2; bm * 2 ^ 31 + c2; cm * 2 ^ 31 + d2] + dm).
  { unfold wv. cbn [fold_left]. change (2 ^ 32) with 4294967296. change (2 ^ 31) with 2147483648. lia. }
  assert (V2 : wv [a; b; c; d] / 2 = wv [a2; am * 2 ^ 31 + b2; bm * 2 ^ 31 + c2; cm * 2 ^ 31 + d2]) by (apply (div_uniq _ _ 2 dm); lia).
  assert (VO : Z.odd (wv [a; b; c; d]) = negb (dm * 2 ^ 31 =? 0)).
  { rewrite V. rewrite Z.add_comm, Z.odd_add_mul_2. assert (dm = 0 \/ dm = 1) as [-> | ->] by lia; reflexivity. }
  rewrite <- VO. unfold gf_half. rewrite V2. destruct (Z.odd (wv [a; b; c; d])).
  - exists (Z.lxor a2 0xE1000000), (am * 2 ^ 31 + b2), (bm * 2 ^ 31 + c2), (cm * 2 ^ 31 + d2). split; [reflexivity|].
    split; [apply lxor_range; try assumption; try lia; change (2 ^ 32) with 4294967296; lia|]. do 3 (split; [assumption|]).
    change gcm_R with (wv [0xE1000000; 0; 0; 0]). rewrite <- wv4_lxor; try assumption; try (unfold u32; change (2 ^ 32) with 4294967296; lia). rewrite !Z.lxor_0_r. reflexivity.
  - exists a2, (am * 2 ^ 31 + b2), (bm * 2 ^ 31 + c2), (cm * 2 ^ 31 + d2). auto 10.
Qed.

(** ** bits of the state *)
Lemma testbit_shift x k y j : 0 <= k -> 0 <= y < 2 ^ k -> 0 <= j -> Z.testbit (x * 2 ^ k + y) (k + j) = Z.testbit x j.
Proof.
  intros Hk Hy Hj. rewrite Z.add_comm. rewrite <- lor_disjoint by assumption. rewrite Z.lor_spec.
  rewrite Z.mul_pow2_bits by lia. replace (k + j - k) with j by lia.
  rewrite <- (Z.mod_small y (2 ^ k)) by lia. rewrite Z.mod_pow2_bits_high by lia. reflexivity.
Qed.
Lemma testbit_low x k y j : 0 <= y < 2 ^ k -> 0 <= j < k -> Z.testbit (x * 2 ^ k + y) j = Z.testbit y j.
Proof.
  intros Hy Hj. rewrite Z.add_comm. rewrite <- lor_disjoint by (try assumption; lia). rewrite Z.lor_spec. rewrite Z.mul_pow2_bits_low by lia. apply orb_false_r.
Qed.
Lemma os2ip_bit l : bytes l -> forall m j, (m < length l)%nat -> 0 <= j < 8 ->
  Z.testbit (os2ip l) (8 * (Z.of_nat (length l) - 1 - Z.of_nat m) + j) = Z.testbit (nth m l 0) j.
Proof.
  induction l as [|x l IH] using rev_ind; intros H m j Hm Hj; [cbn in Hm; lia|].
  apply Forall_app in H. destruct H as [H1 H2]. inversion H2 as [|? ? Hx _]; subst. unfold is_byte in Hx.
  rewrite app_length in *. cbn [length] in *. rewrite os2ip_snoc. replace (256 * os2ip l) with (os2ip l * 2 ^ 8) by lia.
  destruct (Nat.eq_dec m (length l)) as [->|N].
  - rewrite app_nth2 by lia. rewrite Nat.sub_diag. cbn [nth]. replace (8 * _ + j) with j by lia. apply testbit_low; [exact Hx|lia].
  - rewrite app_nth1 by lia. rewrite <- IH by (try assumption; lia).
    replace (8 * (Z.of_nat (length l + 1) - 1 - Z.of_nat m) + j) with (8 + (8 * (Z.of_nat (length l) - 1 - Z.of_nat m) + j)) by lia.
    apply testbit_shift; try exact Hx; lia.
Qed.
Lemma land1 x : Z.land x 1 = Z.b2z (Z.odd x).
Proof. change 1 with (2 ^ 1 - 1). rewrite land_mask by lia. rewrite Zmod_odd. destruct (Z.odd x); reflexivity. Qed.
Lemma gbit st i : st_ok st -> (i < 128)%nat ->
  Z.land (Z.shiftr (at_ st (i / 8)) (7 - Z.of_nat (i mod 8))) 1 = Z.b2z (Z.testbit (os2ip st) (127 - Z.of_nat i)).
Proof.
  intros [Hl Hb] Hi. rewrite land1. f_equal. rewrite <- Z.bit0_odd.
  pose proof (Nat.mod_upper_bound i 8 ltac:(lia)) as Hm. pose proof (Nat.div_mod i 8 ltac:(lia)) as Hd.
  rewrite Z.shiftr_spec by lia. rewrite Z.add_0_l. unfold at_.
  rewrite <- (os2ip_bit st Hb (i / 8) (7 - Z.of_nat (i mod 8))) by lia. f_equal. rewrite Hl. lia.
Qed.
Lemma gmask_release st i : st_ok st -> (i < 128)%nat ->
  gmask Release st i = Some (if Z.testbit (os2ip st) (127 - Z.of_nat i) then 2 ^ 32 - 1 else 0).
Proof.
  intros H Hi. unfold gmask. rewrite gbit by assumption. destruct (Z.testbit _ _); reflexivity.
Qed.
(** a debug build panics on the first zero bit *)
Lemma gmask_debug st i : st_ok st -> (i < 128)%nat ->
  gmask Debug st i = if Z.testbit (os2ip st) (127 - Z.of_nat i) then Some (2 ^ 32 - 1) else None.
Proof.
  intros H Hi. unfold gmask. rewrite gbit by assumption. destruct (Z.testbit _ _); reflexivity.
Qed.
Lemma land_all w : u32 w -> Z.land w (2 ^ 32 - 1) = w.
Proof. intros H. rewrite land_mask by lia. apply Z.mod_small. exact H. Qed.
Lemma gf_loop_ok st : st_ok st -> forall n i a b c d pa pb pc pd, (i + n = 128)%nat -> u32 a -> u32 b -> u32 c -> u32 d -> u32 pa -> u32 pb -> u32 pc -> u32 pd ->
  exists qa qb qc qd, gf_loop Release st i (rows n [a; b; c; d]) [pa; pb; pc; pd] = Some [qa; qb; qc; qd] /\ u32 qa /\ u32 qb /\ u32 qc /\ u32 qd
    /\ wv [qa; qb; qc; qd] = gf_steps n (os2ip st) (Z.of_nat i) (wv [pa; pb; pc; pd]) (wv [a; b; c; d]).
Proof.
  intros Hst. induction n as [|n IH]; intros i a b c d pa pb pc pd Hi Ha Hb Hc Hd Hpa Hpb Hpc Hpd.
  - exists pa, pb, pc, pd. cbn [rows gf_loop gf_steps]. auto 10.
  - cbn [rows gf_loop gf_steps]. rewrite gmask_release by (try assumption; lia). cbn [bind map].
    destruct (next_row_ok a b c d Ha Hb Hc Hd) as [a' [b' [c' [d' [-> [Ra [Rb [Rc [Rd RV]]]]]]]]].
    cbn [xorl]. rewrite <- RV. replace (Z.of_nat i + 1) with (Z.of_nat (S i)) by lia.
    destruct (Z.testbit (os2ip st) (127 - Z.of_nat i)).
    + rewrite !land_all by assumption. rewrite <- wv4_lxor by assumption.
      apply IH; try assumption; try lia; apply lxor_range; try assumption; lia.
    + rewrite !Z.land_0_r, !Z.lxor_0_r. apply IH; try assumption; lia.
Qed.
Lemma st_ok_words h : st_ok h -> exists a b c d,
  map (fun i => gpack [at_ h (4 * i); at_ h (4 * i + 1); at_ h (4 * i + 2); at_ h (4 * i + 3)]) (seq 0 4) = [a; b; c; d]
  /\ u32 a /\ u32 b /\ u32 c /\ u32 d /\ wv [a; b; c; d] = os2ip h.
Proof.
  intros [Hl Hb]. do 16 (destruct h as [|? h]; [discriminate Hl|]). destruct h; [|discriminate Hl].
  repeat match goal with H : Forall _ (_ :: _) |- _ => inversion H; subst; clear H end.
  cbn [map seq]. unfold at_. cbn [nth Nat.mul Nat.add]. rewrite !gpack_os2ip by assumption.
  do 4 eexists. split; [reflexivity|].
  assert (G : forall x1 x2 x3 x4, byte_ok x1 -> byte_ok x2 -> byte_ok x3 -> byte_ok x4 -> u32 (os2ip [x1; x2; x3; x4])).
  { intros x1 x2 x3 x4 Hx Hy Hz Ht. apply (os2ip_range [x1; x2; x3; x4]). unfold bytes, is_byte, byte_ok in *. auto. }
  do 4 (split; [apply G; assumption|]). unfold wv, os2ip. cbn [fold_left]. lia.
Qed.
Theorem gf2mul_release h st : st_ok h -> st_ok st -> gf2mul Release (precompute h) st = Some (i2osp (gf_mul (os2ip st) (os2ip h)) 16).
Proof.
  intros Hh Hst. unfold gf2mul, precompute. destruct (st_ok_words h Hh) as [a [b [c [d [-> [Ha [Hb [Hc [Hd HV]]]]]]]]].
  assert (U0 : u32 0) by (unfold u32; lia).
  destruct (gf_loop_ok st Hst 128 0 a b c d 0 0 0 0 ltac:(lia) Ha Hb Hc Hd U0 U0 U0 U0) as [qa [qb [qc [qd [E [Qa [Qb [Qc [Qd QV]]]]]]]]].
  change (repeat 0 4) with [0; 0; 0; 0]. rewrite E. cbn [bind]. unfold at_. cbn [nth]. rewrite words_i2osp by assumption. unfold gf_mul. change 0 with (Z.of_nat 0) at 1. rewrite QV, HV. f_equal.
Qed.
(** in a debug build the multiplication panics unless every bit of the state is 1 *)
Theorem gf2mul_debug h st r : st_ok h -> st_ok st -> gf2mul Debug (precompute h) st = Some r -> os2ip st = 2 ^ 128 - 1.
Proof.
  intros Hh Hst. unfold gf2mul, precompute. destruct (st_ok_words h Hh) as [a [b [c [d [-> _]]]]].
  change (repeat 0 4) with [0; 0; 0; 0]. intros E.
  assert (G : forall n i row p, (i + n = 128)%nat -> gf_loop Debug st i (rows n row) p <> None -> forall k, (i <= k < 128)%nat -> Z.testbit (os2ip st) (127 - Z.of_nat k) = true).
  { induction n as [|n IH]; intros i row p Hi HN k Hk; [lia|]. cbn [rows gf_loop] in HN. rewrite gmask_debug in HN by (try assumption; lia).
    destruct (Z.testbit (os2ip st) (127 - Z.of_nat i)) eqn:T; cbn [bind] in HN; [|congruence].
    destruct (Nat.eq_dec k i) as [->|N]; [exact T|]. apply (IH (S i) _ _ ltac:(lia) HN). lia. }
  assert (HB : forall k, (0 <= k < 128)%nat -> Z.testbit (os2ip st) (127 - Z.of_nat k) = true).
  { apply (G 128%nat 0%nat [a; b; c; d] [0; 0; 0; 0] eq_refl). destruct (gf_loop Debug st 0 (rows 128 [a; b; c; d]) [0; 0; 0; 0]); [discriminate|discriminate]. }
  destruct Hst as [Hl Hb]. pose proof (os2ip_range st Hb) as R. rewrite Hl in R. change (256 ^ Z.of_nat 16) with (2 ^ 128) in R.
  change (2 ^ 128 - 1) with (Z.ones 128). apply Z.bits_inj'. intros k Hk.
  destruct (Z.ltb_spec k 128) as [L|L].
  - rewrite Z.ones_spec_low by lia. replace k with (127 - Z.of_nat (Z.to_nat (127 - k))) by lia. apply HB. lia.
  - rewrite Z.ones_spec_high by lia. rewrite <- (Z.mod_small (os2ip st) (2 ^ 128)) by lia. apply Z.mod_pow2_bits_high. lia.
Qed.

(** ** absorbing a block *)
Lemma absorb_pad st blk : length st = 16%nat -> (length blk <= 16)%nat -> absorb_block st blk = xorl st (pad_block blk).
Proof.
  intros Hs Hb. unfold absorb_block, pad_block. rewrite <- (firstn_skipn (length blk) st) at 3.
  set (k := length blk) in *. assert (L1 : length (firstn k st) = k) by (rewrite firstn_length; lia). assert (L2 : length (skipn k st) = (16 - k)%nat) by (rewrite skipn_length; lia).
  revert L1 L2. generalize (firstn k st) (skipn k st) (16 - k)%nat. intros u v n Hu Hv. assert (Hk : length blk = k) by reflexivity. clearbody k. clear Hs Hb st. revert blk Hk u Hu.
  induction k as [|k IH]; intros [|x blk] Hk [|y u] Hu; cbn [length] in *; try discriminate.
  - cbn [xorl app]. subst n. clear. induction v as [|x v IH]; [reflexivity|]. cbn [length repeat xorl]. rewrite Z.lxor_0_r, <- IH. reflexivity.
  - cbn [xorl app]. rewrite IH by congruence. reflexivity.
Qed.
Lemma zeros_ok n : Forall byte_ok (repeat 0 n).
Proof. apply Forall_forall. intros x Hx. apply repeat_spec in Hx. subst. unfold byte_ok. lia. Qed.
Lemma pad_ok blk : (length blk <= 16)%nat -> Forall byte_ok blk -> st_ok (pad_block blk).
Proof.
  intros H F. split; [unfold pad_block; rewrite app_length, repeat_length; lia|]. apply Forall_app. split; [exact F|]. apply zeros_ok.
Qed.
Lemma xor_st_ok a b : st_ok a -> st_ok b -> st_ok (xorl a b).
Proof. intros [A1 A2] [B1 B2]. split; [rewrite xorl_length; lia|apply xorl_bytes; assumption]. Qed.
Lemma i2osp_st v : st_ok (i2osp v 16).
Proof. split; [apply i2osp_length|apply i2osp_bytes]. Qed.
(** one step of GHASH *)
Definition gstep (H y x : list Z) : list Z := i2osp (gf_mul (os2ip (xorl y x)) (os2ip H)) 16.
Lemma gstep_st H y x : st_ok (gstep H y x).
Proof. apply i2osp_st. Qed.
Lemma absorb_release h st blk : st_ok h -> st_ok st -> (length blk <= 16)%nat -> Forall byte_ok blk ->
  gf2mul Release (precompute h) (absorb_block st blk) = Some (gstep h st (pad_block blk)).
Proof.
  intros Hh Hst Hl Hb. rewrite absorb_pad by (try assumption; apply Hst). rewrite gf2mul_release; [reflexivity|exact Hh|]. apply xor_st_ok; [exact Hst|apply pad_ok; assumption].
Qed.

(** ** lengths *)
Definition lv (l : Z * Z) : Z := fst l * 2 ^ 32 + snd l.
Definition len_ok (l : Z * Z) : Prop := u32 (fst l) /\ u32 (snd l).
Lemma len_inc_release l : len_ok l -> exists l', len_inc Release l = Some l' /\ len_ok l' /\ lv l' = (lv l + 1) mod 2 ^ 64.
Proof.
  destruct l as [h l]. unfold len_ok, u32, len_inc, lv. cbn [fst snd uadd bind]. intros [Hh Hl]. unfold wrapu.
  change (2 ^ 64) with (2 ^ 32 * 2 ^ 32). change (2 ^ 32) with 4294967296 in *.
  destruct (Z.eq_dec l 4294967295) as [->|N].
  - change ((4294967295 + 1) mod 4294967296) with 0. cbn [Z.eqb]. eexists. split; [reflexivity|]. cbn [fst snd].
    pose proof (Z.mod_pos_bound (h + 1) 4294967296 ltac:(lia)). split; [lia|].
    replace (h * 4294967296 + 4294967295 + 1) with ((h + 1) * 4294967296) by lia. rewrite Z.mul_mod_distr_r by lia. lia.
  - rewrite (Z.mod_small (l + 1)) by lia. destruct (Z.eqb_spec (l + 1) 0); [lia|]. eexists. split; [reflexivity|]. cbn [fst snd]. split; [lia|]. rewrite Z.mod_small; lia.
Qed.
Lemma len_add_release n : forall l, len_ok l -> exists l', len_add Release n l = Some l' /\ len_ok l' /\ lv l' mod 2 ^ 64 = (lv l + Z.of_nat n) mod 2 ^ 64.
Proof.
  induction n as [|n IH]; intros l H; cbn [len_add].
  - exists l. split; [reflexivity|]. split; [exact H|]. f_equal. lia.
  - destruct (len_inc_release l H) as [l1 [-> [H1 E1]]]. cbn [bind]. destruct (IH l1 H1) as [l2 [-> [H2 E2]]]. exists l2. split; [reflexivity|]. split; [exact H2|].
    rewrite E2, E1. rewrite Z.add_mod_idemp_l by lia. f_equal. lia.
Qed.
Lemma len_words l : len_ok l ->
  gunpack (Z.lor (shl32 (fst l) 3) (Z.shiftr (Z.land (snd l) 0xE0000000) 29)) ++ gunpack (shl32 (snd l) 3) = i2osp (8 * lv l) 8.
Proof.
  destruct l as [h l]. unfold len_ok, u32, lv. cbn [fst snd]. intros [Hh Hl].
  assert (E1 : Z.shiftr (Z.land l 0xE0000000) 29 = l / 2 ^ 29).
  { rewrite Z.shiftr_land. change (Z.shiftr 0xE0000000 29) with (2 ^ 3 - 1). rewrite land_mask by lia. rewrite Z.shiftr_div_pow2 by lia. apply Z.mod_small.
    split; [apply Z.div_pos; lia|]. apply Z.div_lt_upper_bound; [lia|]. change (2 ^ 29 * 2 ^ 3) with (2 ^ 32). lia. }
  assert (E2 : forall x, shl32 x 3 = (8 * x) mod 2 ^ 32) by (intros x; unfold shl32, wrapu; rewrite Z.shiftl_mul_pow2 by lia; f_equal; lia).
  assert (E3 : forall x, (8 * x) mod 2 ^ 32 = x mod 2 ^ 29 * 2 ^ 3) by (intros x; change (2 ^ 32) with (8 * 2 ^ 29); rewrite Z.mul_mod_distr_l by lia; lia).
  assert (B : 0 <= l / 2 ^ 29 < 2 ^ 3) by (split; [apply Z.div_pos; lia|apply Z.div_lt_upper_bound; [lia|change (2 ^ 29 * 2 ^ 3) with (2 ^ 32); lia]]).
  rewrite E1, !E2, !E3. rewrite lor_disjoint' by (try exact B; lia).
  pose proof (Z.mod_pos_bound h (2 ^ 29) ltac:(lia)) as M1. pose proof (Z.mod_pos_bound l (2 ^ 29) ltac:(lia)) as M2.
  pose proof (Z.div_mod h (2 ^ 29) ltac:(lia)) as D1. pose proof (Z.div_mod l (2 ^ 29) ltac:(lia)) as D2.
  set (x := l / 2 ^ 29 + h mod 2 ^ 29 * 2 ^ 3) in *. set (y := l mod 2 ^ 29 * 2 ^ 3).
  assert (X : 0 <= x < 2 ^ 32) by (unfold x; change (2 ^ 3) with 8 in *; change (2 ^ 29) with 536870912 in *; change (2 ^ 32) with 4294967296 in *; lia).
  assert (Y : 0 <= y < 2 ^ 32) by (unfold y; change (2 ^ 3) with 8 in *; change (2 ^ 29) with 536870912 in *; change (2 ^ 32) with 4294967296 in *; lia).
  rewrite !gunpack_i2osp. apply os2ip_inj.
  - apply Forall_app. split; apply i2osp_bytes.
  - apply i2osp_bytes.
  - rewrite app_length, !i2osp_length. reflexivity.
  - rewrite os2ip_app, !os2ip_i2osp, i2osp_length. change (256 ^ Z.of_nat 4) with (2 ^ 32). change (256 ^ Z.of_nat 8) with (2 ^ 64).
    rewrite !Z.mod_small by assumption. symmetry. apply (mod_uniq _ (h / 2 ^ 29)).
    + unfold x, y. change (2 ^ 64) with (4294967296 * 4294967296). change (2 ^ 3) with 8 in *; change (2 ^ 29) with 536870912 in *; change (2 ^ 32) with 4294967296 in *. lia.
    + change (2 ^ 64) with (2 ^ 32 * 2 ^ 32). lia.
Qed.
Lemma i2osp_cong a b n : a mod 256 ^ Z.of_nat n = b mod 256 ^ Z.of_nat n -> i2osp a n = i2osp b n.
Proof. intros H. apply os2ip_inj; try apply i2osp_bytes; [rewrite !i2osp_length; reflexivity|]. rewrite !os2ip_i2osp. exact H. Qed.
Lemma len_block_ok la lc (a c : list Z) : len_ok la -> len_ok lc -> lv la mod 2 ^ 64 = Z.of_nat (length a) mod 2 ^ 64 -> lv lc mod 2 ^ 64 = Z.of_nat (length c) mod 2 ^ 64 ->
  len_block la lc = len64 a ++ len64 c.
Proof.
  intros Ha Hc Ea Ec. unfold len_block. rewrite app_assoc. rewrite !len_words by assumption. unfold len64.
  f_equal; apply i2osp_cong; change (256 ^ Z.of_nat 8) with (2 ^ 64); rewrite Z.mul_mod by lia; [rewrite Ea|rewrite Ec]; rewrite <- Z.mul_mod by lia; reflexivity.
Qed.

(** ** the hashing loop *)
Lemma chunks_fuel_enough n : (n > 0)%nat -> forall f l, (length l <= f)%nat -> chunks_fuel f n l = chunks n l.
Proof.
  intros Hn. unfold chunks. assert (G : forall f1 f2 l, (length l <= f1)%nat -> (length l <= f2)%nat -> chunks_fuel f1 n l = chunks_fuel f2 n l).
  { induction f1 as [|f1 IH]; intros [|f2] [|x l] H1 H2; cbn [length] in *; try lia; cbn [chunks_fuel]; try reflexivity. f_equal.
    assert (L : (length (skipn n (x :: l)) <= length l)%nat) by (rewrite skipn_length; cbn [length]; lia). apply IH; lia. }
  intros f l H. apply G; lia.
Qed.
Lemma chunks_cons n l : (n > 0)%nat -> l <> [] -> chunks n l = firstn n l :: chunks n (skipn n l).
Proof.
  intros Hn Hl. unfold chunks at 1. destruct l as [|x l]; [congruence|]. cbn [length chunks_fuel]. f_equal.
  apply chunks_fuel_enough; [exact Hn|]. rewrite skipn_length. cbn [length]. lia.
Qed.
Lemma chunks_app n a b : (n > 0)%nat -> (length a mod n = 0)%nat -> chunks n (a ++ b) = chunks n a ++ chunks n b.
Proof.
  intros Hn. remember (length a / n)%nat as q eqn:Q. revert a Q. induction q as [|q IH]; intros a Q Ha.
  - assert (length a = 0)%nat by (pose proof (Nat.div_mod (length a) n ltac:(lia)); lia). destruct a; [reflexivity|discriminate].
  - assert (L : (n <= length a)%nat) by (pose proof (Nat.div_mod (length a) n ltac:(lia)); rewrite Nat.mul_comm in *; cbn in *; lia).
    assert (a <> []) by (intros ->; cbn in L; lia).
    rewrite (chunks_cons n (a ++ b)) by (first [assumption | intros Q0; apply app_eq_nil in Q0; tauto]). rewrite (chunks_cons n a) by assumption.
    rewrite firstn_app, skipn_app. replace (n - length a)%nat with 0%nat by lia. cbn [firstn skipn]. rewrite app_nil_r. cbn [app]. f_equal.
    apply IH; rewrite skipn_length.
    + replace (length a) with ((length a - n) + 1 * n)%nat in Q by lia. rewrite Nat.div_add in Q by lia. lia.
    + replace (length a) with ((length a - n) + 1 * n)%nat in Ha by lia. rewrite Nat.mod_add in Ha by lia. exact Ha.
Qed.
Lemma Forall_fs {A} (P : A -> Prop) n l : Forall P l -> Forall P (firstn n l) /\ Forall P (skipn n l).
Proof. intros H. rewrite <- (firstn_skipn n l) in H. apply Forall_app in H. exact H. Qed.
Lemma hash_loop_cons bd f table data st l : data <> [] -> hash_loop bd (S f) table data st l =
  (l <- len_add bd (length (firstn 16 data)) l ;; st <- gf2mul bd table (absorb_block st (firstn 16 data)) ;; hash_loop bd f table (skipn 16 data) st l).
Proof. destruct data; [congruence|]. reflexivity. Qed.
Lemma hash_loop_release h : st_ok h -> forall fuel data st l, (length data <= fuel)%nat -> Forall byte_ok data -> st_ok st -> len_ok l ->
  exists l', hash_loop Release fuel (precompute h) data st l = Some (fold_left (gstep h) (padded_blocks data) st, l') /\ len_ok l'
    /\ lv l' mod 2 ^ 64 = (lv l + Z.of_nat (length data)) mod 2 ^ 64 /\ st_ok (fold_left (gstep h) (padded_blocks data) st).
Proof.
  intros Hh. induction fuel as [|f IH]; intros data st l Hf Hd Hs Hl.
  - destruct data; [|cbn in Hf; lia]. exists l. cbn [hash_loop]. split; [reflexivity|]. split; [exact Hl|]. split; [f_equal; cbn; lia|exact Hs].
  - destruct data as [|x data'].
    { exists l. split; [reflexivity|]. split; [exact Hl|]. split; [f_equal; cbn; lia|exact Hs]. }
    assert (ND : x :: data' <> []) by discriminate. assert (LD : (length (x :: data') = S (length data'))%nat) by reflexivity. revert Hf Hd ND LD. generalize (x :: data'). intros data Hf Hd ND LD.
    unfold padded_blocks. rewrite (chunks_cons 16 data) by (try exact ND; lia). cbn [map fold_left]. fold (padded_blocks (skipn 16 data)).
    rewrite hash_loop_cons by exact ND.
    destruct (Forall_fs byte_ok 16 data Hd) as [F1 F2].
    assert (LB : (length (firstn 16 data) <= 16)%nat) by (rewrite firstn_length; lia).
    destruct (len_add_release (length (firstn 16 data)) l Hl) as [l1 [E1 [H1 V1]]].
    assert (LS : (length (skipn 16 data) <= f)%nat) by (rewrite skipn_length; lia).
    destruct (IH (skipn 16 data) (gstep h st (pad_block (firstn 16 data))) l1 LS F2 (gstep_st _ _ _) H1) as [l2 [E2 [H2 [V2 S2]]]].
    exists l2. rewrite E1. cbn [bind]. rewrite absorb_release by assumption. cbn [bind]. rewrite E2. split; [reflexivity|].
    split; [exact H2|]. split; [|exact S2]. rewrite V2. rewrite <- Z.add_mod_idemp_l by lia. rewrite V1. rewrite Z.add_mod_idemp_l by lia. f_equal.
    rewrite firstn_length, skipn_length. lia.
Qed.
