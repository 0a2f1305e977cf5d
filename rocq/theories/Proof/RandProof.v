(** The generator of rand.rs is the specified sequence. *)
From Verif Require Import Base.Word Base.Arr Model.Gcm Model.Sha2 Model.Rand Spec.Bytes Spec.Sha2Spec Spec.RandSpec Proof.AesBase Proof.AesBlock Proof.GcmBase Proof.Sha2Block Proof.Sha2Stream Proof.Sha2Mac Proof.Sha3Block Proof.Sha3Stream.

(** ** the window *)
Lemma swb_S n s : swb (S n) s = swb_step (swb n s).
Proof. reflexivity. Qed.
Lemma swb_add a b s : swb (a + b) s = swb a (swb b s).
Proof. induction a as [|a IH]; [reflexivity|]. change (swb_step (swb (a + b) s) = swb_step (swb a (swb b s))). rewrite IH. reflexivity. Qed.
Lemma step_length s : length (fst s) = 21%nat -> length (fst (swb_step s)) = 21%nat.
Proof. destruct s as [w b]. cbn [fst swb_step]. intros H. rewrite app_length. destruct w; [discriminate|]. cbn [tl length] in *. lia. Qed.
Lemma swb_length n s : length (fst s) = 21%nat -> length (fst (swb n s)) = 21%nat.
Proof. intros H. induction n as [|n IH]; [exact H|]. rewrite swb_S. apply step_length. exact IH. Qed.
Lemma nth_tl {A} (l : list A) j d : nth j (tl l) d = nth (S j) l d.
Proof. destruct l; [destruct j; reflexivity|reflexivity]. Qed.
Lemma step_shift s j : length (fst s) = 21%nat -> (j < 20)%nat -> nth j (fst (swb_step s)) 0 = nth (S j) (fst s) 0.
Proof.
  destruct s as [w b]. cbn [fst swb_step]. intros H Hj. rewrite app_nth1, nth_tl; [reflexivity|]. destruct w; [discriminate|]. cbn [tl length] in *. lia.
Qed.
Lemma window_word X n j : length X = 21%nat -> (j < 21)%nat -> nth j (fst (swb n (X, 0))) 0 = word X (n + j).
Proof.
  intros HX. revert n. induction j as [|j IH]; intros n Hj; [unfold word; rewrite Nat.add_0_r; reflexivity|].
  rewrite <- step_shift by (try lia; apply swb_length; exact HX). rewrite <- swb_S, IH by lia. f_equal. lia.
Qed.

(** ** a batch of 21 *)
Lemma wsub2 t a b : wsub (wsub t a) b = (t - a - b) mod 2 ^ 32.
Proof. unfold wsub, wrapu. rewrite Zminus_mod_idemp_l. reflexivity. Qed.
Definition rotated (i : nat) (w : list Z) : list Z := skipn (21 - i) w ++ firstn (21 - i) w.
Lemma rotated_nth i w j : length w = 21%nat -> (i <= 21)%nat -> (j < 21)%nat -> nth j (rotated i w) 0 = if (j <? i)%nat then nth (21 - i + j) w 0 else nth (j - i) w 0.
Proof.
  intros L Hi Hj. unfold rotated. assert (LS : length (skipn (21 - i) w) = i) by (rewrite skipn_length; lia). destruct (Nat.ltb_spec j i) as [G|G].
  - rewrite app_nth1 by lia. rewrite <- (firstn_skipn (21 - i) w) at 2. rewrite app_nth2 by (rewrite firstn_length; lia). rewrite firstn_length. f_equal. lia.
  - rewrite app_nth2 by lia. rewrite LS. apply nth_firstn. lia.
Qed.
Lemma rotated_length i w : length w = 21%nat -> (i <= 21)%nat -> length (rotated i w) = 21%nat.
Proof. intros L Hi. unfold rotated. rewrite app_length, skipn_length, firstn_length. lia. Qed.
Lemma turn_ok i w b k : length w = 21%nat -> (i < 21)%nat -> (if (k =? 21)%nat then 0 else k)%nat = ((15 + i) mod 21)%nat ->
  refill_turn (rotated i w, k, b) i = (rotated (S i) (fst (swb_step (w, b))), S ((15 + i) mod 21), snd (swb_step (w, b))).
Proof.
  intros L Hi Hk. unfold refill_turn, RAND_NK. rewrite Hk. unfold at_. pose proof (Nat.mod_upper_bound (15 + i) 21 ltac:(lia)) as MB.
  assert (TK : nth ((15 + i) mod 21) (rotated i w) 0 = nth 15 w 0).
  { rewrite rotated_nth by lia. destruct (Nat.ltb_spec i 6) as [G|G].
    - rewrite Nat.mod_small by lia. replace (15 + i <? i)%nat with false by (symmetry; apply Nat.ltb_ge; lia). f_equal. lia.
    - replace ((15 + i) mod 21)%nat with (i - 6)%nat by (apply (Nat.mod_unique _ _ 1); lia). replace (i - 6 <? i)%nat with true by (symmetry; apply Nat.ltb_lt; lia). f_equal. lia. }
  assert (TI : nth i (rotated i w) 0 = nth 0 w 0).
  { rewrite rotated_nth by lia. rewrite Nat.ltb_irrefl, Nat.sub_diag. reflexivity. }
  rewrite TK, TI, wsub2. cbn [swb_step fst snd]. set (t := nth 15 w 0). set (x := (t - nth 0 w 0 - b) mod 2 ^ 32).
  f_equal; [f_equal|].
  - assert (L2 : length (tl w ++ [x]) = 21%nat) by (apply (step_length (w, b)); exact L).
    apply nth_ext_Z; [rewrite aset_length, !rotated_length by lia; reflexivity|]. rewrite aset_length, rotated_length by lia. intros j Hj.
    assert (TL : length (tl w) = 20%nat) by (destruct w; [discriminate|]; cbn [tl length] in *; lia).
    rewrite (rotated_nth (S i)) by lia. destruct (Nat.eq_dec j i) as [->|N].
    + rewrite nth_aset_eq by (rewrite rotated_length; lia). replace (i <? S i)%nat with true by (symmetry; apply Nat.ltb_lt; lia).
      rewrite app_nth2 by lia. rewrite TL. replace (21 - S i + i - 20)%nat with 0%nat by lia. reflexivity.
    + rewrite nth_aset_neq by exact N. rewrite rotated_nth by lia. destruct (Nat.ltb_spec j i) as [G|G].
      * replace (j <? S i)%nat with true by (symmetry; apply Nat.ltb_lt; lia). rewrite app_nth1 by lia. rewrite nth_tl. f_equal. lia.
      * replace (j <? S i)%nat with false by (symmetry; apply Nat.ltb_ge; lia). rewrite app_nth1 by lia. rewrite nth_tl. f_equal. lia.
  - destruct (Z.ltb_spec x t); destruct (Z.ltb_spec t x); destruct (Z.eqb_spec x t); try reflexivity; lia.
Qed.
Lemma turns_ok w b : length w = 21%nat -> forall i, (i <= 21)%nat -> exists k, fold_left refill_turn (seq 0 i) (w, 15%nat, b) = (rotated i (fst (swb i (w, b))), k, snd (swb i (w, b)))
   /\ ((i < 21)%nat -> (if (k =? 21)%nat then 0 else k)%nat = ((15 + i) mod 21)%nat).
Proof.
  intros L. induction i as [|i IH]; intros Hi.
  - exists 15%nat. split; [|reflexivity]. change ((w, 15%nat, b) = (skipn 21 w ++ firstn 21 w, 15%nat, b)). rewrite <- L, skipn_all, firstn_all. reflexivity.
  - destruct (IH ltac:(lia)) as [k [E K]]. rewrite seq_S, fold_left_app, E. cbn [fold_left Nat.add].
    rewrite turn_ok by (try (apply K; lia); try (apply swb_length; exact L); lia). rewrite swb_S. rewrite <- surjective_pairing. eexists. split; [reflexivity|].
    intros H. destruct (Nat.ltb_spec i 5).
    + rewrite !Nat.mod_small by lia. replace (S (15 + i) =? 21)%nat with false by (symmetry; apply Nat.eqb_neq; lia). cbv iota. lia.
    + destruct (Nat.eq_dec i 5) as [->|N]; [reflexivity|]. replace ((15 + i) mod 21)%nat with (i - 6)%nat by (apply (Nat.mod_unique _ _ 1); lia).
      replace (S (i - 6) =? 21)%nat with false by (symmetry; apply Nat.eqb_neq; lia). cbv iota. apply (Nat.mod_unique _ _ 1); lia.
Qed.
Lemma batch_ok w b : length w = 21%nat -> exists k, fold_left refill_turn (seq 0 21) (w, 15%nat, b) = (fst (swb 21 (w, b)), k, snd (swb 21 (w, b))).
Proof.
  intros L. destruct (turns_ok w b L 21 (le_n 21)) as [k [E _]]. exists k. rewrite E. unfold rotated. rewrite Nat.sub_diag, skipn_O, firstn_O, app_nil_r. reflexivity.
Qed.

(** ** the object after c calls since sirand *)
Record calls (X : list Z) (c : nat) (r : rnd) : Prop := mkcalls { c_ptr : rndptr r = (c mod 21)%nat; c_st : (ira r, borrow r) = swb (21 * (c / 21)) (X, 0) }.
Lemma sbrand_ok X c r : length X = 21%nat -> calls X c r -> exists r', sbrand r = (word X (c + 1), r') /\ calls X (c + 1) r' /\ pool_ptr r' = pool_ptr r /\ pool r' = pool r.
Proof.
  intros HX [Hp Hs]. unfold sbrand, RAND_NK. rewrite Hp. pose proof (Nat.div_mod c 21 ltac:(lia)) as DM. pose proof (Nat.mod_upper_bound c 21 ltac:(lia)) as MB.
  assert (EI : ira r = fst (swb (21 * (c / 21)) (X, 0))) by (rewrite <- Hs; reflexivity). assert (EB : borrow r = snd (swb (21 * (c / 21)) (X, 0))) by (rewrite <- Hs; reflexivity).
  set (q := (c / 21)%nat) in *. destruct (Nat.ltb_spec (S (c mod 21)) 21) as [G|G].
  - assert (AW : at_ (ira r) (S (c mod 21)) = word X (c + 1)) by (unfold at_; rewrite EI, window_word by (try exact HX; lia); f_equal; lia). rewrite AW.
    eexists. split; [reflexivity|split; [|split; reflexivity]].
    constructor; cbn [rndptr ira borrow].
      * apply (Nat.mod_unique _ _ q); lia.
      * replace ((c + 1) / 21)%nat with q; [exact Hs|]. apply (Nat.div_unique _ _ _ (S (c mod 21))); lia.
  - change (21 - RAND_NJ)%nat with 15%nat. assert (LI : length (ira r) = 21%nat) by (rewrite EI; apply swb_length; exact HX).
    destruct (batch_ok (ira r) (borrow r) LI) as [k E]. rewrite E. rewrite Hs, <- swb_add. replace (21 + 21 * q)%nat with (21 * (q + 1))%nat by lia.
    assert (C1 : (c + 1 = 21 * (q + 1))%nat) by lia.
    assert (AW : at_ (fst (swb (21 * (q + 1)) (X, 0))) 0 = word X (c + 1)) by (unfold at_; rewrite window_word by (try exact HX; lia); f_equal; lia). rewrite AW.
    eexists. split; [reflexivity|split; [|split; reflexivity]].
    constructor; cbn [rndptr ira borrow].
      * apply (Nat.mod_unique _ _ (q + 1)); lia.
      * replace ((c + 1) / 21)%nat with (q + 1)%nat by (apply (Nat.div_unique _ _ _ 0); lia). symmetry. apply surjective_pairing.
Qed.
Lemma sbrands_ok X : length X = 21%nat -> forall n c r, calls X c r -> exists r', sbrands n r = (map (fun i => word X (c + 1 + i)) (seq 0 n), r') /\ calls X (c + n) r' /\ pool_ptr r' = pool_ptr r /\ pool r' = pool r.
Proof.
  intros HX. induction n as [|n IH]; intros c r H.
  - exists r. rewrite Nat.add_0_r. auto.
  - cbn [sbrands]. destruct (sbrand_ok X c r HX H) as [r1 [E1 [H1 [P1 Q1]]]]. rewrite E1. destruct (IH (c + 1)%nat r1 H1) as [r2 [E2 [H2 [P2 Q2]]]]. rewrite E2. exists r2.
    split; [|split; [replace (c + S n)%nat with (c + 1 + n)%nat by lia; exact H2|split; congruence]]. f_equal. cbn [seq map]. f_equal; [f_equal; lia|].
    rewrite <- seq_shift, map_map. apply map_ext. intros i. f_equal. lia.
Qed.

(** ** seeding *)
Definition xorin (a : list Z) (p : nat * Z) : list Z := aset a (fst p) (Z.lxor (nth (fst p) a 0) (snd p)).
Lemma sirand_turns : forall is a m sd, exists m' sd', fold_left sirand_turn is (a, m, sd) = (fold_left xorin (combine (map (fun i => (8 * i) mod 21)%nat is) (fib_words (length is) sd m)) a, m', sd').
Proof.
  induction is as [|i is IH]; intros a m sd; [exists m, sd; reflexivity|]. cbn [fold_left map length fib_words combine]. unfold sirand_turn at 2. unfold RAND_NV, RAND_NK.
  destruct (IH (aset a ((8 * i) mod 21) (Z.lxor (at_ a ((8 * i) mod 21)) m)) (wsub sd m) m) as [m' [sd' E]]. exists m', sd'. rewrite E. reflexivity.
Qed.
Lemma xorin_length ps : forall a, length (fold_left xorin ps a) = length a.
Proof. induction ps as [|p ps IH]; intros a; [reflexivity|]. cbn [fold_left]. rewrite IH. unfold xorin. apply aset_length. Qed.
Lemma stir_length A sd : length (stir_in A sd) = length A.
Proof. unfold stir_in. apply (xorin_length _ A). Qed.
Lemma stir_xorin A sd : stir_in A sd = fold_left xorin (combine (map (fun i => (8 * i) mod 21)%nat (seq 1 20)) (fib_words 20 sd 1)) (aset A 0 (Z.lxor (at_ A 0) sd)).
Proof. unfold stir_in. change (fun (a : list Z) p => aset a (fst p) (Z.lxor (nth (fst p) a 0) (snd p))) with xorin. generalize (combine (map (fun i => (8 * i) mod 21)%nat (seq 1 20)) (fib_words 20 sd 1)). intros l. cbn [fold_left]. reflexivity. Qed.
Lemma warm_same : RAND_WARM = warmup.
Proof. reflexivity. Qed.
Global Opaque RAND_WARM warmup.
Notation WARM := warmup.
Lemma sirand_ok r sd : length (ira r) = 21%nat -> calls (stir_in (ira r) sd) WARM (sirand r sd).
Proof.
  intros L. unfold sirand. change (RAND_NK - 1)%nat with 20%nat. destruct (sirand_turns (seq 1 20) (aset (ira r) 0 (Z.lxor (at_ (ira r) 0) sd)) 1 sd) as [m' [sd' E]]. rewrite E.
  rewrite warm_same. generalize WARM. intros n.
  rewrite seq_length, <- stir_xorin.
  set (X := stir_in (ira r) sd). assert (HX : length X = 21%nat) by (unfold X; rewrite stir_length; exact L).
  assert (C0 : calls X 0 (mkrnd X 0 0 (pool_ptr r) (pool r))) by (constructor; reflexivity).
  destruct (sbrands_ok X HX n 0 _ C0) as [r' [E' [H' _]]]. rewrite E'. exact H'.
Qed.
Lemma calls_ira X c r : calls X c r -> ira r = fst (swb (21 * (c / 21)) (X, 0)).
Proof. intros [_ H]. rewrite <- H. reflexivity. Qed.
Lemma sirand_again X r sd : length X = 21%nat -> calls X WARM r -> calls (stir_in (after_warmup X) sd) WARM (sirand r sd).
Proof.
  intros HX H. unfold after_warmup. rewrite <- (calls_ira _ _ _ H). apply sirand_ok. rewrite (calls_ira _ _ _ H). apply swb_length. exact HX.
Qed.
Lemma sirands_ok ws : forall X r, length X = 21%nat -> calls X WARM r ->
  calls (fold_left (fun X sd => stir_in (after_warmup X) sd) ws X) WARM (fold_left sirand ws r) /\ length (fold_left (fun X sd => stir_in (after_warmup X) sd) ws X) = 21%nat.
Proof.
  induction ws as [|w ws IH]; intros X r HX H; [auto|]. rewrite !fl_cons. apply IH; [rewrite stir_length; apply swb_length; exact HX|]. apply sirand_again; assumption.
Qed.
Lemma pack4_os2ip a b c d : is_byte a -> is_byte b -> is_byte c -> is_byte d -> pack4 a b c d = os2ip [d; c; b; a].
Proof. intros. change (pack4 a b c d) with (Gcm.gpack [d; c; b; a]). apply gpack_os2ip; assumption. Qed.
Lemma seed_word_ok d i : length d = 32%nat -> bytes d -> (i < 8)%nat -> pack4 (at_ d (4 * i)) (at_ d (4 * i + 1)) (at_ d (4 * i + 2)) (at_ d (4 * i + 3)) = os2ip (rev (firstn 4 (skipn (4 * i) d))).
Proof.
  intros L B Hi. assert (N : forall j, is_byte (at_ d j)) by (intros j; unfold at_; apply Forall_nth_ok; [exact B|unfold is_byte; lia]). rewrite pack4_os2ip by apply N.
  do 32 (destruct d as [|? d]; [discriminate|]). destruct d; [|discriminate]. do 8 (destruct i as [|i]; [reflexivity|]). lia.
Qed.
Lemma digest32 bd m : bytes m -> fits SHA256 bd (Z.of_nat (length m) + 128) -> exists s', (s <- process_array sha256 bd (h_new sha256) m ;; hash sha256 bd s) = Some (SHA2 SHA256 m, s').
Proof.
  intros Hm F. destruct (process_array_ok sha256 SHA256 m256 bd m [] (h_new sha256) (new_ok sha256 SHA256 m256) Hm) as [s [E I]]; [eapply fits_le; [|exact F]; cbn [length]; lia|]. rewrite E. cbn [bind].
  destruct (hash_ok sha256 SHA256 m256 bd _ s I) as [s' [E' _]]; [exact F|]. exists s'. exact E'.
Qed.
Lemma fits128 bd : fits SHA256 bd (128 + 128).
Proof. destruct bd; [vm_compute; reflexivity|exact I]. Qed.
Lemma fill_any bd r : exists r', fill_pool bd r = Some r' /\ pool_ptr r' = 0%nat.
Proof.
  unfold fill_pool. destruct (sbrands 128 r) as [xs r1] eqn:E.
  assert (L : length xs = 128%nat).
  { assert (G : forall n r, length (fst (sbrands n r)) = n). { clear. induction n as [|n IH]; intros r; [reflexivity|]. cbn [sbrands]. destruct (sbrand r) as [x r1]. specialize (IH r1). destruct (sbrands n r1). cbn [fst length] in *. lia. }
    specialize (G 128%nat r). rewrite E in G. exact G. }
  destruct (digest32 bd (map (fun x => Z.land x 255) xs)) as [s' D].
  - apply Forall_forall. intros y Hy. apply in_map_iff in Hy. destruct Hy as [x [<- _]]. rewrite land255. apply Z.mod_pos_bound. lia.
  - rewrite map_length, L. apply fits128.
  - destruct (process_array sha256 bd (h_new sha256) _) as [s|]; [|discriminate]. cbn [bind] in *. rewrite D. cbn [bind]. eexists. split; reflexivity.
Qed.
Lemma list32 (l : list Z) : length l = 32%nat -> map (at_ l) (seq 0 32) = l.
Proof. intros H. apply nth_ext_Z; [rewrite map_length, seq_length; lia|]. rewrite map_length, seq_length. intros i Hi. rewrite nth_map_seq by exact Hi. reflexivity. Qed.
Definition low_bytes (X : list Z) (k : nat) : list Z := map (fun x => Z.land (word X (WARM + 128 * k + 1 + x)) 255) (seq 0 128).
Lemma low_bytes_ok X k : bytes (low_bytes X k) /\ length (low_bytes X k) = 128%nat.
Proof.
  unfold low_bytes. split; [|rewrite map_length, seq_length; reflexivity].
  apply Forall_forall. intros y Hy. apply in_map_iff in Hy. destruct Hy as [x [E _]]. rewrite <- E, land255. apply Z.mod_pos_bound. lia.
Qed.
Lemma pool_block_low X k : pool_block X k = SHA2 SHA256 (low_bytes X k).
Proof.
  unfold pool_block, low_bytes. exact (f_equal (SHA2 SHA256) (map_ext _ _ (fun i => eq_sym (land255 _)) (seq 0 128))).
Qed.
Lemma fill_with bd m xs r r1 : sbrands 128 r = (xs, r1) -> map (fun x => Z.land x 255) xs = m -> bytes m -> length m = 128%nat ->
  fill_pool bd r = Some (mkrnd (ira r1) (rndptr r1) (borrow r1) 0 (SHA2 SHA256 m)).
Proof.
  intros E M Bm Lm. unfold fill_pool. rewrite E, M. destruct (digest32 bd m Bm) as [s' D]; [rewrite Lm; apply fits128|].
  destruct (process_array sha256 bd (h_new sha256) m) as [s|]; [|discriminate]. cbn [bind] in *. rewrite D. cbn [bind fst]. rewrite list32 by apply (SHA2_length sha256 SHA256 m256). reflexivity.
Qed.
Lemma plus128 w k : (w + 128 * (k + 1) = w + 128 * k + 128)%nat.
Proof. lia. Qed.
Lemma draw128 X k r : length X = 21%nat -> calls X (WARM + 128 * k) r -> exists r1, sbrands 128 r = (map (fun i => word X (WARM + 128 * k + 1 + i)) (seq 0 128), r1) /\ calls X (WARM + 128 * k + 128) r1.
Proof. intros HX H. destruct (sbrands_ok X HX 128 _ r H) as [r1 [E1 [H1 _]]]. exists r1. split; [exact E1|exact H1]. Qed.
Lemma draw_low X k : map (fun x => Z.land x 255) (map (fun i => word X (WARM + 128 * k + 1 + i)) (seq 0 128)) = low_bytes X k.
Proof. unfold low_bytes. rewrite map_map. reflexivity. Qed.
Lemma calls_same X c r r1 : calls X c r1 -> rndptr r = rndptr r1 -> ira r = ira r1 -> borrow r = borrow r1 -> calls X c r.
Proof. intros [A B] E1 E2 E3. constructor; congruence. Qed.
Lemma fill_ok_ bd X k r : length X = 21%nat -> calls X (WARM + 128 * k) r ->
  exists r', fill_pool bd r = Some r' /\ calls X (WARM + 128 * k + 128) r' /\ pool_ptr r' = 0%nat /\ pool r' = pool_block X k.
Proof.
  intros HX H. destruct (draw128 X k r HX H) as [r1 [E1 H1]].
  pose proof (fill_with bd (low_bytes X k) _ r r1 E1 (draw_low X k) (proj1 (low_bytes_ok X k)) (proj2 (low_bytes_ok X k))) as F.
  rewrite pool_block_low. 
  exists (mkrnd (ira r1) (rndptr r1) (borrow r1) 0 (SHA2 SHA256 (low_bytes X k))). split; [exact F|]. split; [|split; reflexivity].
  apply (calls_same _ _ _ r1 H1); reflexivity.
Qed.
Lemma fill_ok bd X k r : length X = 21%nat -> calls X (WARM + 128 * k) r ->
  exists r', fill_pool bd r = Some r' /\ calls X (WARM + 128 * (k + 1)) r' /\ pool_ptr r' = 0%nat /\ pool r' = pool_block X k.
Proof. intros HX H. rewrite (plus128 WARM k). exact (fill_ok_ bd X k r HX H). Qed.
Record seeded (raw : list Z) (n : nat) (r : rnd) : Prop := mkseeded { sd_calls : calls (start raw) (WARM + 128 * (n / 32 + 1)) r; sd_ptr : pool_ptr r = (n mod 32)%nat; sd_pool : pool r = pool_block (start raw) (n / 32) }.
Lemma stirs_length ws : forall X, length X = 21%nat -> length (fold_left (fun X sd => stir_in (after_warmup X) sd) ws X) = 21%nat.
Proof. induction ws as [|w ws IH]; intros X LX; [exact LX|]. rewrite fl_cons. apply IH. rewrite stir_length. unfold after_warmup. apply swb_length. exact LX. Qed.
Lemma seed_words_length raw : length (seed_words raw) = 8%nat.
Proof. unfold seed_words. rewrite map_length, seq_length. reflexivity. Qed.
Lemma start_length raw : length (start raw) = 21%nat.
Proof.
  unfold start. pose proof (seed_words_length raw) as L. destruct (seed_words raw) as [|w0 ws]; [discriminate|]. apply stirs_length. rewrite stir_length. apply repeat_length.
Qed.
Definition wiped (r : rnd) : rnd := mkrnd (repeat 0 RAND_NK) (rndptr r) (borrow r) 0 (pool r).
Definition stirred (d : list Z) (r : rnd) : rnd := fold_left (fun r i => sirand r (pack4 (at_ d (4 * i)) (at_ d (4 * i + 1)) (at_ d (4 * i + 2)) (at_ d (4 * i + 3)))) (seq 0 8) r.
Lemma seed_unfold bd r n raw s d s' : (0 < n)%nat -> (n <= length raw)%nat -> process_array sha256 bd (h_new sha256) (firstn n raw) = Some s -> hash sha256 bd s = Some (d, s') ->
  rnd_seed bd r n raw = fill_pool bd (stirred d (wiped r)).
Proof.
  intros Hn Hl E1 E2. unfold rnd_seed. replace (0 <? n)%nat with true by (symmetry; apply Nat.ltb_lt; exact Hn). replace (length raw <? n)%nat with false by (symmetry; apply Nat.ltb_ge; exact Hl).
  rewrite E1. cbn [bind]. rewrite E2. unfold stirred, wiped. cbn [bind fst]. reflexivity.
Qed.
Lemma stirred_words d : length d = 32%nat -> bytes d -> forall is r, (forall i, In i is -> (i < 8)%nat) ->
  fold_left (fun r i => sirand r (pack4 (at_ d (4 * i)) (at_ d (4 * i + 1)) (at_ d (4 * i + 2)) (at_ d (4 * i + 3)))) is r = fold_left sirand (map (fun i => os2ip (rev (firstn 4 (skipn (4 * i) d)))) is) r.
Proof.
  intros Ld Bd. induction is as [|i is IH]; intros r1 H1; [reflexivity|]. cbn [map]. rewrite !fl_cons. rewrite seed_word_ok by (try assumption; apply H1; left; reflexivity). apply IH. intros j Hj. apply H1. right. exact Hj.
Qed.
Lemma stirred_ok d r : length d = 32%nat -> bytes d -> stirred d r = fold_left sirand (map (fun i => os2ip (rev (firstn 4 (skipn (4 * i) d)))) (seq 0 8)) r.
Proof. intros Ld Bd. unfold stirred. apply stirred_words; [exact Ld|exact Bd|]. intros i Hi. apply in_seq in Hi. lia. Qed.
Lemma started raw r : length (ira r) = 21%nat -> ira r = repeat 0 21 -> calls (start raw) WARM (fold_left sirand (seed_words raw) r).
Proof.
  intros L Z0. unfold start. pose proof (seed_words_length raw) as LW. destruct (seed_words raw) as [|w0 ws]; [discriminate|]. clear LW. rewrite fl_cons. rewrite <- Z0.
  apply (fun H => proj1 (sirands_ok ws _ _ H (sirand_ok r w0 L))). rewrite stir_length. exact L.
Qed.
Lemma seeded_0 raw r : calls (start raw) (WARM + 128 * (0 + 1)) r -> pool_ptr r = 0%nat -> pool r = pool_block (start raw) 0 -> seeded raw 0 r.
Proof. intros A B C. apply mkseeded; rewrite ?(Nat.div_0_l 32), ?(Nat.mod_0_l 32) by discriminate; assumption. Qed.
Lemma fill_start bd raw r : calls (start raw) WARM r -> exists r', fill_pool bd r = Some r' /\ seeded raw 0 r'.
Proof.
  intros H. assert (H0 : calls (start raw) (WARM + 128 * 0) r) by (rewrite Nat.mul_0_r, Nat.add_0_r; exact H).
  destruct (fill_ok bd (start raw) 0 r (start_length raw) H0) as [r2 [E2 [C2 [P2 Q2]]]]. exists r2. split; [exact E2|]. exact (seeded_0 raw r2 C2 P2 Q2).
Qed.
Lemma seed_ok bd r n raw : (0 < n)%nat -> (n <= length raw)%nat -> bytes raw -> fits SHA256 bd (Z.of_nat n + 128) -> exists r', rnd_seed bd r n raw = Some r' /\ seeded (firstn n raw) 0 r'.
Proof.
  intros N Hl Hb F. assert (Hb' : bytes (firstn n raw)) by (apply Forall_firstn; exact Hb).
  destruct (digest32 bd (firstn n raw) Hb') as [s' D]; [rewrite firstn_length_le by exact Hl; exact F|].
  destruct (process_array sha256 bd (h_new sha256) (firstn n raw)) as [s|] eqn:E1; [|discriminate]. cbn [bind] in D. rewrite (seed_unfold bd r n raw s _ _ N Hl E1 D).
  rewrite stirred_ok by (try apply SHA2_bytes; apply (SHA2_length sha256 SHA256 m256)). change (map _ (seq 0 8)) with (seed_words (firstn n raw)).
  apply fill_start. apply started; [apply repeat_length|reflexivity].
Qed.
Lemma getbyte_ok bd raw n r : seeded raw n r -> exists r', getbyte bd r = Some (random_byte raw n, r') /\ seeded raw (n + 1) r'.
Proof.
  intros [C P Q]. unfold getbyte. rewrite P. pose proof (Nat.div_mod n 32 ltac:(lia)) as DM. pose proof (Nat.mod_upper_bound n 32 ltac:(lia)) as MB.
  replace (32 <=? n mod 32)%nat with false by (symmetry; apply Nat.leb_gt; lia). cbn [pool_ptr pool ira rndptr borrow]. unfold random_byte, at_. rewrite Q.
  destruct (Nat.leb_spec 32 (S (n mod 32))) as [G|G].
  - assert (D1 : ((n + 1) / 32 = n / 32 + 1)%nat) by (symmetry; apply (Nat.div_unique _ _ _ 0); lia). assert (M1 : ((n + 1) mod 32 = 0)%nat) by (symmetry; apply (Nat.mod_unique _ _ (n / 32 + 1)); lia).
    destruct (fill_ok bd (start raw) (n / 32 + 1) (mkrnd (ira r) (rndptr r) (borrow r) (S (n mod 32)) (pool_block (start raw) (n / 32))) (start_length raw)) as [r2 [E2 [C2 [P2 Q2]]]].
    { destruct C as [A B]. constructor; [exact A|exact B]. }
    rewrite E2. cbn [bind]. exists r2. split; [reflexivity|]. constructor; [rewrite D1; exact C2|rewrite M1; exact P2|rewrite D1; exact Q2].
  - assert (D1 : ((n + 1) / 32 = n / 32)%nat) by (symmetry; apply (Nat.div_unique _ _ _ (S (n mod 32))); lia). assert (M1 : ((n + 1) mod 32 = S (n mod 32))%nat) by (symmetry; apply (Nat.mod_unique _ _ (n / 32)); lia).
    cbn [bind]. eexists. split; [reflexivity|]. constructor; cbn [pool_ptr pool]; rewrite ?D1, ?M1; [|reflexivity|reflexivity]. destruct C as [A B]. constructor; [exact A|exact B].
Qed.
Lemma getbytes_ok bd raw : forall k n r, seeded raw n r -> exists r', getbytes bd k r = Some (map (random_byte raw) (seq n k), r') /\ seeded raw (n + k) r'.
Proof.
  induction k as [|k IH]; intros n r H; [exists r; rewrite Nat.add_0_r; auto|]. cbn [getbytes]. destruct (getbyte_ok bd raw n r H) as [r1 [E1 H1]]. rewrite E1. cbn [bind fst snd].
  destruct (IH _ _ H1) as [r2 [E2 H2]]. rewrite E2. cbn [bind fst snd]. exists r2. cbn [seq map]. rewrite Nat.add_1_r. split; [reflexivity|]. replace (n + S k)%nat with (n + 1 + k)%nat by lia. exact H2.
Qed.
Lemma seeded_unique raw n r1 r2 : seeded raw n r1 -> seeded raw n r2 -> r1 = r2.
Proof.
  intros [[A1 B1] P1 Q1] [[A2 B2] P2 Q2]. destruct r1 as [i1 p1 b1 q1 l1], r2 as [i2 p2 b2 q2 l2]. cbn [ira rndptr borrow pool_ptr pool] in *. rewrite <- B2 in B1. inversion B1. congruence.
Qed.
(** ** any state at all *)
Lemma sbrands_length n : forall r, length (fst (sbrands n r)) = n.
Proof. induction n as [|n IH]; intros r; [reflexivity|]. cbn [sbrands]. destruct (sbrand r) as [x r1]. specialize (IH r1). destruct (sbrands n r1). cbn [fst length] in *. lia. Qed.
Definition low8 (xs : list Z) : list Z := map (fun x => Z.land x 255) xs.
Lemma low8_bytes xs : bytes (low8 xs).
Proof. apply Forall_forall. intros y Hy. apply in_map_iff in Hy. destruct Hy as [x [<- _]]. rewrite land255. apply Z.mod_pos_bound. lia. Qed.
Lemma fill_gen bd r : exists r1, fill_pool bd r = Some (mkrnd (ira r1) (rndptr r1) (borrow r1) 0 (SHA2 SHA256 (low8 (fst (sbrands 128 r))))).
Proof.
  destruct (sbrands 128 r) as [xs r1] eqn:E. exists r1. apply (fill_with bd _ xs r r1 E eq_refl (low8_bytes xs)). unfold low8. rewrite map_length.
  change xs with (fst (xs, r1)). rewrite <- E. apply sbrands_length.
Qed.
Definition sane (r : rnd) : Prop := (pool_ptr r < 32)%nat /\ length (pool r) = 32%nat /\ bytes (pool r).
Lemma fill_sane bd r : exists r', fill_pool bd r = Some r' /\ sane r'.
Proof.
  destruct (fill_gen bd r) as [r1 E]. exists (mkrnd (ira r1) (rndptr r1) (borrow r1) 0 (SHA2 SHA256 (low8 (fst (sbrands 128 r))))). split; [exact E|]. unfold sane. cbn [pool_ptr pool].
  split; [lia|]. split; [apply (SHA2_length sha256 SHA256 m256)|apply SHA2_bytes].
Qed.
Lemma seed_sane bd r n raw : (n <= length raw)%nat -> bytes raw -> fits SHA256 bd (Z.of_nat n + 128) -> exists r', rnd_seed bd r n raw = Some r' /\ sane r'.
Proof.
  intros Hl Hb F. destruct (Nat.eq_dec n 0) as [Z0|N].
  - subst n. unfold rnd_seed. cbn [Nat.ltb Nat.leb bind]. apply fill_sane.
  - assert (Hb' : bytes (firstn n raw)) by (apply Forall_firstn; exact Hb).
    destruct (digest32 bd (firstn n raw) Hb') as [s' D]; [rewrite firstn_length_le by exact Hl; exact F|].
    destruct (process_array sha256 bd (h_new sha256) (firstn n raw)) as [s|] eqn:E1; [|discriminate]. cbn [bind] in D.
    rewrite (seed_unfold bd r n raw s _ _ ltac:(lia) Hl E1 D). apply fill_sane.
Qed.
Lemma getbyte_sane bd r : sane r -> exists x r', getbyte bd r = Some (x, r') /\ is_byte x /\ sane r'.
Proof.
  intros [P [L B]]. unfold getbyte. replace (32 <=? pool_ptr r)%nat with false by (symmetry; apply Nat.leb_gt; lia). cbn [pool_ptr].
  assert (X : is_byte (at_ (pool r) (pool_ptr r))) by (unfold at_; apply Forall_nth_ok; [exact B|unfold is_byte; lia]).
  destruct (Nat.leb_spec 32 (S (pool_ptr r))) as [G|G].
  - destruct (fill_sane bd (mkrnd (ira r) (rndptr r) (borrow r) (S (pool_ptr r)) (pool r))) as [r2 [E2 S2]]. rewrite E2. cbn [bind]. exists (at_ (pool r) (pool_ptr r)), r2. auto.
  - cbn [bind]. eexists _, _. split; [reflexivity|]. split; [exact X|]. split; [exact G|]. split; [exact L|exact B].
Qed.
