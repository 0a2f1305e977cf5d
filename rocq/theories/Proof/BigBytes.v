(** nbits, byte and hex codecs. *)
From Verif Require Import Base.Word Model.Big Spec.BigSpec Spec.Bytes Proof.BigVal Proof.BigShift.
Require Import Psatz.

Section WithCfg.
Variable c : cfg.
Hypothesis Hok : cfg_ok c.
Notation B := (BASEBITS c).
Notation C := (CHUNK c).
Notation N := (NLEN c).
Let F := cfg_ok_facts c Hok.
Let HB : 8 <= B. Proof. pose proof (cf_B c F); lia. Qed.
Let HC : B + 3 <= C. Proof. exact (cf_C c F). Qed.
Let P2B : 0 < 2 ^ B. Proof. apply pow2_pos; lia. Qed.

Lemma top_limb_spec w : canon B w ->
  match top_limb w with
  | None => val B w = 0
  | Some (k, x) => 0 < x < 2 ^ B /\ exists low, 0 <= low < 2 ^ (B * Z.of_nat k) /\ val B w = low + x * 2 ^ (B * Z.of_nat k)
  end.
Proof.
  intros H. induction H as [|x t Hx Ht IH]; [reflexivity|].
  cbn [top_limb]. destruct (top_limb t) as [[k y]|].
  - destruct IH as [Hy [low [Hl Hv]]]. split; [exact Hy|].
    exists (x + 2 ^ B * low). cbn [val]. rewrite Hv.
    replace (B * Z.of_nat (S k)) with (B + B * Z.of_nat k) by lia.
    rewrite Z.pow_add_r by nia. split; [nia|ring].
  - cbn [val]. rewrite IH. destruct (Z.eqb_spec x 0) as [E|E]; [lia|].
    split; [lia|]. exists 0. replace (B * Z.of_nat 0) with 0 by lia. rewrite Z.pow_0_r. split; lia.
Qed.

Lemma nbits_spec w s : norm c w = Some s -> canon B s ->
  nbits c w = Some (if val B s =? 0 then 0 else Z.log2 (val B s) + 1).
Proof.
  intros Hn Hc. unfold nbits. rewrite Hn. cbn [bind].
  pose proof (top_limb_spec s Hc) as T. destruct (top_limb s) as [[k x]|].
  - destruct T as [Hx [low [Hl Hv]]].
    rewrite count_bits_spec; [|split; [lia|]|lia].
    + cbn [bind]. assert (P : 0 < 2 ^ (B * Z.of_nat k)) by (apply pow2_pos; nia).
      destruct (Z.eqb_spec (val B s) 0) as [E|E]; [nia|]. f_equal.
      assert (L : Z.log2 (val B s) = B * Z.of_nat k + Z.log2 x); [|lia].
      apply Z.log2_unique; [pose proof (Z.log2_nonneg x); nia|].
      pose proof (Z.log2_spec x ltac:(lia)) as [L1 L2]. pose proof (Z.log2_nonneg x).
      rewrite Z.pow_succ_r in * by nia. rewrite Z.pow_add_r by nia. rewrite Hv.
      set (E2 := 2 ^ (B * Z.of_nat k)) in *. set (Lx := 2 ^ Z.log2 x) in *.
      split; [nia|]. assert (x + 1 <= 2 * Lx) by lia. nia.
    + replace (Z.of_nat (S (Z.to_nat C)) - 1) with C by lia.
      assert (2 ^ B <= 2 ^ C) by (apply pow2_le; lia). lia.
  - rewrite T. reflexivity.
Qed.

(** ** bytes out *)
Lemma bytes_loop_spec k w : canon B w -> w <> [] -> bytes_loop c k w = Some (i2osp (val B w) k).
Proof.
  revert w. induction k as [|k IH]; intros w Hc Hne; [reflexivity|].
  cbn [bytes_loop i2osp].
  destruct (fshr_canon c HB HC w 8 ltac:(lia) Hc Hne) as [r [H1 [H2 [H3 H4]]]].
  rewrite H1. cbn [bind snd]. rewrite IH; [|exact H3|intros ->; destruct w; cbn in H4; congruence].
  cbn [bind]. rewrite H2. change 255 with (2 ^ 8 - 1). rewrite (get0_land c) by (assumption || lia).
  reflexivity.
Qed.

Lemma norm_wf w : big_wf c w -> norm c w = Some w.
Proof. intros [Hl Hc]. apply norm_canon_id; assumption. Qed.

Lemma tobytearray_spec w b n : big_wf c w -> (n + Z.to_nat (MODBYTES c) <= length b)%nat ->
  tobytearray c w b n =
    Some (firstn n b ++ i2osp (val B w) (Z.to_nat (MODBYTES c)) ++ skipn (n + Z.to_nat (MODBYTES c)) b).
Proof.
  intros Hw Hb. unfold tobytearray. rewrite norm_wf by exact Hw. cbn [bind].
  replace (n + Z.to_nat (MODBYTES c) <=? length b)%nat with true by (symmetry; apply Nat.leb_le; exact Hb).
  destruct Hw as [Hl Hc]. rewrite bytes_loop_spec; [reflexivity|exact Hc|].
  intros ->. cbn in Hl. pose proof (cf_N c F). lia.
Qed.

(** ** bytes in *)
Lemma add_low_spec w x k : canon B w -> 0 <= k <= B -> val B w mod 2 ^ k = 0 -> 0 <= x < 2 ^ k -> w <> [] ->
  exists r, add_low c w x = Some r /\ canon B r /\ val B r = val B w + x /\ length r = length w.
Proof.
  intros Hc Hk Hm Hx Hne. destruct w as [|y t]; [congruence|].
  rewrite (val_mod_low c y t k Hk) in Hm.
  apply Forall_cons_iff in Hc. destruct Hc as [Hy Ht].
  assert (EB : 2 ^ B = 2 ^ (B - k) * 2 ^ k) by (rewrite <- Z.pow_add_r by lia; f_equal; lia).
  assert (Pk : 0 < 2 ^ k) by (apply pow2_pos; lia).
  assert (Hyx : y + x < 2 ^ B).
  { pose proof (Z.div_mod y (2 ^ k) ltac:(lia)) as D. rewrite Hm in D.
    set (q := y / 2 ^ k) in *. assert (q < 2 ^ (B - k)) by nia. nia. }
  assert (2 ^ B <= 2 ^ (C - 1)) by (apply pow2_le; lia).
  unfold add_low. rewrite chk_ok by lia. cbn [bind].
  eexists; split; [reflexivity|]. split; [|split; [cbn [val]; ring|reflexivity]].
  constructor; [lia|exact Ht].
Qed.

Lemma land255 x : is_byte x -> Z.land x 255 = x.
Proof. intros H. change 255 with (2 ^ 8 - 1). rewrite land_mask by lia. apply Z.mod_small. exact H. Qed.

Lemma shl8_step m x (n : nat) : canon B m -> length m = n -> (2 <= n)%nat ->
  val B m * 256 < 2 ^ (B * Z.of_nat n) -> is_byte x ->
  exists m1 m2, fshl c m 8 = Some m1 /\ shl c m 8 = Some m1 /\ add_low c m1 (Z.land x 255) = Some m2 /\ canon B m2
     /\ val B m2 = 256 * val B m + x /\ length m2 = n.
Proof.
  intros Hc Hl Hn Hv Hx.
  destruct (fshl_canon c HB HC m 8 ltac:(lia) ltac:(lia) Hc) as [m1 [H1 [H2 [H3 H4]]]]; [rewrite Hl; exact Hv|].
  destruct (add_low_spec m1 x 8 H3 ltac:(lia)) as [m2 [A1 [A2 [A3 A4]]]].
  - rewrite H2. apply Z.mod_mul. lia.
  - exact Hx.
  - intros ->. cbn in H4. lia.
  - exists m1, m2. rewrite land255 by exact Hx. split; [exact H1|].
    split.
    { pose proof (cf_B c F).
      unfold shl. replace (8 mod B) with 8 by (symmetry; apply Z.mod_small; lia).
      replace (8 / B) with 0 by (symmetry; apply Z.div_small; lia). cbn [Z.to_nat].
      replace (0 <? length m)%nat with true by (symmetry; apply Nat.ltb_lt; lia).
      rewrite Nat.sub_0_r, firstn_all. cbn [repeat app].
      unfold fshl in H1. destruct (_ && _) in H1; [|discriminate]. exact H1. }
    split; [exact A1|]. split; [exact A2|]. split; [rewrite A3, H2; change (2^8) with 256; ring|lia].
Qed.

Lemma frombytes_loop_spec bs : forall b pre m n, bytes b -> (n + length bs <= length b)%nat ->
  firstn (length bs) (skipn n b) = bs ->
  canon B m -> length m = N -> val B m = os2ip pre -> (length pre + length bs <= Z.to_nat (MODBYTES c))%nat -> bytes pre ->
  exists r, frombytes_loop c (seq n (length bs)) b m = Some r /\ big_wf c r /\ val B r = os2ip (pre ++ bs).
Proof.
  induction bs as [|x bs IH]; intros b pre m n Hb Hlen Hseg Hc Hl Hv Hp Hpre.
  - exists m. cbn [length seq frombytes_loop]. rewrite app_nil_r. split; [reflexivity|]. split; [split; assumption|exact Hv].
  - cbn [length seq frombytes_loop].
    cbn [length] in Hlen, Hp.
    assert (Hn : (n < length b)%nat) by lia.
    rewrite (get_nth b n Hn) in Hseg. cbn [length firstn] in Hseg. injection Hseg as Hx Hseg.
    assert (Hxb : is_byte x).
    { rewrite <- Hx. unfold get. unfold bytes in Hb. rewrite Forall_forall in Hb. apply Hb. apply nth_In. exact Hn. }
    destruct (shl8_step m x N Hc Hl (cf_N c F)) as [m1 [m2 [H1 [_ [H2 [H3 [H4 H5]]]]]]]; [|exact Hxb|].
    + rewrite Hv. pose proof (os2ip_range pre Hpre) as R.
      pose proof (cf_cap c F). pose proof (cf_M c F).
      apply Z.lt_le_trans with (256 ^ (Z.of_nat (length pre) + 1)).
      * rewrite Z.pow_add_r by lia. change (256 ^ 1) with 256. lia.
      * change 256 with (2 ^ 8). rewrite <- Z.pow_mul_r by lia. apply pow2_le. lia.
    + rewrite H1. cbn [bind]. rewrite (nth_error_nth' b 0 Hn). cbn [bind]. fold (get b n). rewrite Hx.
      rewrite H2. cbn [bind].
      replace (pre ++ x :: bs) with ((pre ++ [x]) ++ bs) by (rewrite <- app_assoc; reflexivity).
      apply IH; try assumption.
      * lia.
      * rewrite H4, Hv, os2ip_snoc. reflexivity.
      * rewrite app_length. cbn [length]. lia.
      * apply Forall_app. split; [exact Hpre|]. constructor; [exact Hxb|constructor].
Qed.

Lemma big_new_wf : big_wf c (big_new c).
Proof. split; [unfold big_new; apply repeat_length|apply canon_repeat0; assumption]. Qed.

Lemma frombytearray_spec b n : bytes b -> (n + Nat.min (Z.to_nat (MODBYTES c)) (length b) <= length b)%nat ->
  exists r, frombytearray c b n = Some r /\ big_wf c r
    /\ val B r = os2ip (firstn (Nat.min (Z.to_nat (MODBYTES c)) (length b)) (skipn n b)).
Proof.
  intros Hb Hn. unfold frombytearray. set (L := Nat.min _ _) in *.
  set (bs := firstn L (skipn n b)).
  assert (Hbl : length bs = L) by (unfold bs; rewrite firstn_length_le; [reflexivity|rewrite skipn_length; lia]).
  destruct big_new_wf as [W1 W2].
  destruct (frombytes_loop_spec bs b [] (big_new c) n Hb) as [r [H1 [H2 H3]]].
  - lia.
  - rewrite Hbl. reflexivity.
  - exact W2.
  - exact W1.
  - unfold big_new. apply val_repeat0.
  - cbn [length]. lia.
  - constructor.
  - exists r. rewrite Hbl in H1. split; [exact H1|]. split; [exact H2|exact H3].
Qed.

Lemma dfrombytes_loop_spec bs pre m : bytes bs ->
  canon B m -> length m = DNLEN c -> val B m = os2ip pre ->
  (length pre + length bs <= Z.to_nat (2 * MODBYTES c))%nat -> bytes pre ->
  exists r, dfrombytes_loop c bs m = Some r /\ dbig_wf c r /\ val B r = os2ip (pre ++ bs).
Proof.
  revert pre m. induction bs as [|x bs IH]; intros pre m Hb Hc Hl Hv Hp Hpre.
  - exists m. rewrite app_nil_r. split; [reflexivity|]. split; [split; assumption|exact Hv].
  - apply Forall_cons_iff in Hb. destruct Hb as [Hx Hb]. cbn [dfrombytes_loop].
    cbn [length] in Hp.
    assert (HN : (2 <= DNLEN c)%nat) by (pose proof (cf_N c F); unfold DNLEN; lia).
    destruct (shl8_step m x (DNLEN c) Hc Hl HN) as [m1 [m2 [_ [H1 [H2 [H3 [H4 H5]]]]]]]; [|exact Hx|].
    + rewrite Hv. pose proof (os2ip_range pre Hpre) as R.
      pose proof (cf_cap c F). pose proof (cf_M c F).
      apply Z.lt_le_trans with (256 ^ (Z.of_nat (length pre) + 1)).
      * rewrite Z.pow_add_r by lia. change (256 ^ 1) with 256. lia.
      * change 256 with (2 ^ 8). rewrite <- Z.pow_mul_r by lia. apply pow2_le. unfold DNLEN. lia.
    + unfold dshl. replace (8 / B) with 0 by (pose proof (cf_B c F); symmetry; apply Z.div_small; lia).
      cbn [Z.to_nat]. replace (0 + 2 <=? length m)%nat with true by (symmetry; apply Nat.leb_le; lia).
      rewrite H1. cbn [bind]. rewrite H2. cbn [bind].
      replace (pre ++ x :: bs) with ((pre ++ [x]) ++ bs) by (rewrite <- app_assoc; reflexivity).
      apply IH; try assumption.
      * rewrite H4, Hv, os2ip_snoc. reflexivity.
      * rewrite app_length. cbn [length]. lia.
      * apply Forall_app. split; [exact Hpre|]. constructor; [exact Hx|constructor].
Qed.

Lemma bytes_firstn n b : bytes b -> bytes (firstn n b).
Proof. intros H. rewrite <- (firstn_skipn n b) in H. apply Forall_app in H. tauto. Qed.

Lemma dfrombytes_spec b : bytes b ->
  exists r, dfrombytes c b = Some r /\ dbig_wf c r /\ val B r = os2ip (firstn (Z.to_nat (2 * MODBYTES c)) b).
Proof.
  intros Hb. unfold dfrombytes. apply (dfrombytes_loop_spec _ []).
  - apply bytes_firstn. exact Hb.
  - apply canon_repeat0; assumption.
  - apply repeat_length.
  - apply val_repeat0.
  - cbn [length]. rewrite firstn_length. lia.
  - constructor.
Qed.

(** ** hex digits *)
Lemma hexval_app a b : hexval (a ++ b) = hexval a * 16 ^ Z.of_nat (length b) + hexval b.
Proof.
  unfold hexval. rewrite fold_left_app. generalize (fold_left (fun a d => 16 * a + d) a 0).
  assert (G : forall b x, fold_left (fun a b => 16 * a + b) b x
     = x * 16 ^ Z.of_nat (length b) + fold_left (fun a b => 16 * a + b) b 0).
  { clear. induction b as [|y b IH]; intros x.
    - cbn [fold_left length]. change (Z.of_nat 0) with 0. rewrite Z.pow_0_r. lia.
    - cbn [fold_left length]. rewrite IH, (IH (16 * 0 + y)).
      rewrite Nat2Z.inj_succ, Z.pow_succ_r by lia. ring. }
  intros z. apply G.
Qed.

Lemma hexval_range l : Forall is_hex l -> 0 <= hexval l < 16 ^ Z.of_nat (length l).
Proof.
  intros H. induction l as [|x l IH] using rev_ind; [cbn; lia|].
  apply Forall_app in H. destruct H as [H1 H2]. inversion H2; subst.
  specialize (IH H1). rewrite hexval_app, app_length. cbn [length].
  replace (Z.of_nat (length l + 1)) with (Z.succ (Z.of_nat (length l))) by lia.
  rewrite Z.pow_succ_r by lia. change (Z.of_nat 1) with 1. change (16 ^ 1) with 16.
  change (hexval [x]) with (16 * 0 + x). unfold is_hex in *. lia.
Qed.

Lemma hex_loop_spec w n : big_wf c w -> (4 * Z.of_nat n <= B * Z.of_nat N) ->
  exists ds, hex_loop c w (rev (seq 0 n)) = Some ds /\ length ds = n /\ Forall is_hex ds
    /\ hexval ds = val B w mod 16 ^ Z.of_nat n.
Proof.
  intros [Hl Hc]. induction n as [|n IH]; intros Hn.
  - exists []. cbn. rewrite Z.mod_1_r. auto.
  - destruct IH as [ds [H1 [H2 [H3 H4]]]]; [lia|].
    rewrite seq_S, rev_app_distr. cbn [rev app plus hex_loop].
    destruct (shr_spec c HB HC w (4 * Z.of_nat n)) as [r [S1 [S2 [S3 S4]]]]; [rewrite Hl; lia|exact Hc|].
    rewrite S1. cbn [bind]. rewrite H1. cbn [bind].
    assert (Hne : r <> []). { intros ->. cbn in S4. pose proof (cf_N c F). lia. }
    change 15 with (2 ^ 4 - 1). rewrite (get0_land c) by (assumption || lia). rewrite S2.
    eexists; split; [reflexivity|]. split; [cbn; lia|].
    assert (P : 0 < 16 ^ Z.of_nat n) by (apply Z.pow_pos_nonneg; lia).
    split; [constructor; [unfold is_hex; apply Z.mod_pos_bound; lia|exact H3]|].
    change (?x :: ds) with ([x] ++ ds). rewrite hexval_app, H4, H2.
    rewrite Nat2Z.inj_succ, Z.pow_succ_r by lia. rewrite (Z.mul_comm 16).
    rewrite Z.rem_mul_r by lia. 
    replace (2 ^ (4 * Z.of_nat n)) with (16 ^ Z.of_nat n) by (change 16 with (2 ^ 4); rewrite <- Z.pow_mul_r by lia; reflexivity).
    match goal with |- context [hexval [?x]] => change (hexval [x]) with (16 * 0 + x) end.
    change (2 ^ 4) with 16. ring.
Qed.

(** A value of at most 8*MODBYTES bits prints as exactly 2*MODBYTES digits *)
Lemma tostring_spec w : big_wf c w -> val B w < 2 ^ (8 * MODBYTES c) ->
  exists ds, tostring_digits c w = Some ds /\ Z.of_nat (length ds) = 2 * MODBYTES c /\ Forall is_hex ds /\ hexval ds = val B w.
Proof.
  intros Hw Hv. pose proof Hw as [Hl Hc]. unfold tostring_digits.
  rewrite (nbits_spec w w (norm_wf w Hw) Hc). cbn [bind].
  pose proof (canon_val B w ltac:(lia) Hc) as R. pose proof (cf_M c F).
  assert (E : hex_len c (if val B w =? 0 then 0 else Z.log2 (val B w) + 1) = 2 * MODBYTES c).
  { unfold hex_len. destruct (Z.eqb_spec (val B w) 0) as [E0|E0]; [change ((0 + 3) / 4) with 0; lia|].
    pose proof (proj1 (Z.log2_lt_pow2 (val B w) (8 * MODBYTES c) ltac:(lia)) Hv) as L.
    assert ((Z.log2 (val B w) + 1 + 3) / 4 < 2 * MODBYTES c + 1) by (apply Z.div_lt_upper_bound; lia). lia. }
  rewrite E. destruct (hex_loop_spec w (Z.to_nat (2 * MODBYTES c)) Hw) as [ds [H1 [H2 [H3 H4]]]].
  - pose proof (cf_cap c F). lia.
  - exists ds. split; [exact H1|]. split; [lia|]. split; [exact H3|].
    rewrite H4. apply Z.mod_small. rewrite Z2Nat.id by lia. change 16 with (2 ^ 4). rewrite <- Z.pow_mul_r by lia.
    replace (4 * (2 * MODBYTES c)) with (8 * MODBYTES c) by lia. lia.
Qed.

Lemma fromhex_loop_spec ds : forall pre m, Forall is_hex ds -> Forall is_hex pre -> big_wf c m ->
  val B m = hexval pre -> Z.of_nat (length pre + length ds) * 4 <= B * Z.of_nat N ->
  exists r, fromhex_loop c ds m = Some r /\ big_wf c r /\ val B r = hexval (pre ++ ds).
Proof.
  induction ds as [|d ds IH]; intros pre m Hd Hp [Hl Hc] Hv Hlen.
  - exists m. rewrite app_nil_r. split; [reflexivity|]. split; [split; assumption|exact Hv].
  - apply Forall_cons_iff in Hd. destruct Hd as [Hd0 Hd]. cbn [fromhex_loop]. cbn [length] in Hlen.
    pose proof (hexval_range pre Hp) as R. pose proof (cf_N c F).
    destruct (shl_spec c HB HC m 4 ltac:(lia) Hc ltac:(lia)) as [m1 [S1 [S2 [S3 S4]]]]; [nia| |].
    { rewrite Hv, Hl. apply Z.lt_le_trans with (16 ^ (Z.of_nat (length pre) + 1)).
      - rewrite Z.pow_add_r by lia. change (16 ^ 1) with 16. change (2 ^ 4) with 16. lia.
      - change 16 with (2 ^ 4). rewrite <- Z.pow_mul_r by lia. apply pow2_le. lia. }
    rewrite S1. cbn [bind].
    destruct (add_low_spec m1 d 4 S3 ltac:(lia)) as [m2 [A1 [A2 [A3 A4]]]].
    + rewrite S2. apply Z.mod_mul. lia.
    + exact Hd0.
    + intros ->. cbn in S4. lia.
    + rewrite A1. cbn [bind].
      replace (pre ++ d :: ds) with ((pre ++ [d]) ++ ds) by (rewrite <- app_assoc; reflexivity).
      apply IH; try assumption.
      * apply Forall_app. split; [exact Hp|]. constructor; [exact Hd0|constructor].
      * split; [lia|exact A2].
      * rewrite A3, S2, hexval_app. cbn [length]. change (Z.of_nat 1) with 1. change (16 ^ 1) with 16.
        change (hexval [d]) with (16 * 0 + d). change (2 ^ 4) with 16. lia.
      * rewrite app_length. cbn [length]. lia.
Qed.

Lemma fromhex_spec ds : Forall is_hex ds -> ds <> [] -> Z.of_nat (length ds) * 4 <= B * Z.of_nat N ->
  exists r, fromhex_digits c ds = Some r /\ big_wf c r /\ val B r = hexval ds.
Proof.
  intros Hd Hne Hlen. destruct ds as [|d ds]; [congruence|]. unfold fromhex_digits.
  apply Forall_cons_iff in Hd. destruct Hd as [Hd0 Hd]. destruct big_new_wf as [W1 W2].
  destruct (add_low_spec (big_new c) d 4 W2 ltac:(lia)) as [m2 [A1 [A2 [A3 A4]]]].
  - unfold big_new. rewrite val_repeat0. reflexivity.
  - exact Hd0.
  - intros E. rewrite E in W1. cbn in W1. pose proof (cf_N c F). lia.
  - rewrite A1. cbn [bind]. apply (fromhex_loop_spec ds [d]); try assumption.
    + constructor; [exact Hd0|constructor].
    + split; [lia|exact A2].
    + rewrite A3. unfold big_new. rewrite val_repeat0. reflexivity.
Qed.
End WithCfg.
