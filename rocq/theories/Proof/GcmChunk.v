(** splitting the data of a GCM call at a multiple of 16 bytes changes nothing (any build, any object) *)
From Verif Require Import Base.Word Base.Arr Model.Aes Model.Gcm Spec.GcmSpec Proof.GcmBase Proof.GcmCipher.

Lemma fs16 (a b : list Z) : (16 <= length a)%nat -> firstn 16 (a ++ b) = firstn 16 a /\ skipn 16 (a ++ b) = skipn 16 a ++ b.
Proof.
  intros H. rewrite firstn_app, skipn_app. replace (16 - length a)%nat with 0%nat by lia. rewrite firstn_O, skipn_O, app_nil_r. auto.
Qed.
Lemma mod16_sub n : (n mod 16 = 0)%nat -> n <> 0%nat -> (16 <= n)%nat /\ ((n - 16) mod 16 = 0)%nat.
Proof.
  intros H N. pose proof (Nat.div_mod n 16 ltac:(lia)) as D. split; [lia|].
  replace n with ((n - 16) + 1 * 16)%nat in H by lia. rewrite Nat.mod_add in H by lia. exact H.
Qed.
Lemma hash_loop_fuel bd table : forall f1 f2 data st l, (length data <= f1)%nat -> (length data <= f2)%nat -> hash_loop bd f1 table data st l = hash_loop bd f2 table data st l.
Proof.
  induction f1 as [|f1 IH]; intros f2 data st l H1 H2.
  - destruct data; [|cbn in H1; lia]. destruct f2; reflexivity.
  - destruct data as [|x d]; [destruct f2; reflexivity|]. destruct f2 as [|f2]; [cbn in H2; lia|].
    rewrite !hash_loop_cons by discriminate. destruct (len_add bd _ l) as [l1|]; cbn [bind]; [|reflexivity]. destruct (gf2mul _ _ _) as [s1|]; cbn [bind]; [|reflexivity].
    apply IH; rewrite skipn_length; cbn [length] in *; lia.
Qed.
Lemma hash_loop_app bd table b fb : (length b <= fb)%nat -> forall fa a st l, (length a <= fa)%nat -> (length a mod 16 = 0)%nat ->
  hash_loop bd (fa + fb) table (a ++ b) st l = (r <- hash_loop bd fa table a st l ;; hash_loop bd fb table b (fst r) (snd r)).
Proof.
  intros Hb. induction fa as [|fa IH]; intros a st l Ha Hm.
  - destruct a; [|cbn in Ha; lia]. reflexivity.
  - destruct a as [|x a0]; [cbn [app hash_loop bind fst snd]; apply hash_loop_fuel; lia|].
    cbn [Nat.add]. assert (NE : length (x :: a0) <> 0%nat) by (cbn; lia). destruct (mod16_sub _ Hm NE) as [L16 M16]. destruct (fs16 (x :: a0) b L16) as [F1 F2].
    rewrite hash_loop_cons by discriminate. rewrite hash_loop_cons by discriminate. rewrite F1, F2.
    destruct (len_add bd _ l) as [l1|]; cbn [bind]; [|reflexivity]. destruct (gf2mul _ _ _) as [s1|]; cbn [bind]; [|reflexivity].
    apply IH; rewrite skipn_length; [cbn [length] in *; lia|exact M16].
Qed.
Lemma crypt_loop_fuel bd enc table : forall f1 f2 inp a st l, (length inp <= f1)%nat -> (length inp <= f2)%nat -> crypt_loop bd enc f1 table a inp st l = crypt_loop bd enc f2 table a inp st l.
Proof.
  induction f1 as [|f1 IH]; intros f2 inp a st l H1 H2.
  - destruct inp; [|cbn in H1; lia]. destruct f2; reflexivity.
  - destruct inp as [|x d]; [destruct f2; reflexivity|]. destruct f2 as [|f2]; [cbn in H2; lia|].
    rewrite !crypt_loop_cons by discriminate. destruct (inc_ctr bd _) as [c|]; cbn [bind]; [|reflexivity]. destruct (len_add bd _ l) as [l1|]; cbn [bind]; [|reflexivity].
    destruct (gf2mul _ _ _) as [s1|]; cbn [bind]; [|reflexivity].
    rewrite (IH f2) by (rewrite skipn_length; cbn [length] in *; lia). reflexivity.
Qed.
Lemma crypt_loop_app bd enc table b fb : (length b <= fb)%nat -> forall fa inp a st l, (length inp <= fa)%nat -> (length inp mod 16 = 0)%nat ->
  crypt_loop bd enc (fa + fb) table a (inp ++ b) st l =
  (r <- crypt_loop bd enc fa table a inp st l ;; let '(o1, st1, l1, a1) := r in
   r2 <- crypt_loop bd enc fb table a1 b st1 l1 ;; let '(o2, st2, l2, a2) := r2 in Some (o1 ++ o2, st2, l2, a2)).
Proof.
  intros Hb. induction fa as [|fa IH]; intros inp a st l Ha Hm.
  - destruct inp; [|cbn in Ha; lia]. cbn [Nat.add app crypt_loop bind]. destruct (crypt_loop bd enc fb table a b st l) as [[[[o2 s2] l2] a2]|]; reflexivity.
  - destruct inp as [|x a0].
    { cbn [app crypt_loop bind]. rewrite (crypt_loop_fuel bd enc table (S fa + fb) fb) by lia. destruct (crypt_loop bd enc fb table a b st l) as [[[[o2 s2] l2] a2]|]; reflexivity. }
    cbn [Nat.add]. assert (NE : length (x :: a0) <> 0%nat) by (cbn; lia). destruct (mod16_sub _ Hm NE) as [L16 M16]. destruct (fs16 (x :: a0) b L16) as [F1 F2].
    rewrite crypt_loop_cons by discriminate. rewrite crypt_loop_cons by discriminate. rewrite F1, F2.
    destruct (inc_ctr bd _) as [c|]; cbn [bind]; [|reflexivity]. destruct (len_add bd _ l) as [l1|]; cbn [bind]; [|reflexivity]. destruct (gf2mul _ _ _) as [s1|]; cbn [bind]; [|reflexivity].
    rewrite IH; [|rewrite skipn_length; cbn [length] in *; lia|rewrite skipn_length; exact M16].
    destruct (crypt_loop bd enc fa table _ _ _ _) as [[[[o1 t1] m1] c1]|]; cbn [bind]; [|reflexivity].
    destruct (crypt_loop bd enc fb table _ _ _ _) as [[[[o2 t2] m2] c2]|]; cbn [bind]; [|reflexivity]. rewrite app_assoc. reflexivity.
Qed.
Lemma mod16_app (a b : list Z) : (length a mod 16 = 0)%nat -> (length (a ++ b) mod 16 = length b mod 16)%nat.
Proof. intros H. rewrite app_length, Nat.add_mod by lia. rewrite H, Nat.add_0_l. apply Nat.mod_mod. lia. Qed.
Lemma add_header_app bd g a b : (length a mod 16 = 0)%nat -> g_status g = ACC_HEADER ->
  add_header bd g (a ++ b) (length (a ++ b)) = (r <- add_header bd g a (length a) ;; add_header bd (snd r) b (length b)).
Proof.
  intros Ha Hs. unfold add_header. rewrite Hs. cbn [negb Nat.eqb ACC_HEADER]. rewrite !take_all. cbn [bind].
  rewrite mod16_app by exact Ha. rewrite app_length. rewrite hash_loop_app by (try exact Ha; lia).
  destruct (hash_loop bd (length a) (g_table g) a (g_statex g) (g_lena g)) as [[st1 l1]|]; cbn [bind fst snd]; [|reflexivity].
  rewrite Ha. cbn [Nat.eqb g_status g_table g_statex g_lena g_lenc g_y0 g_a negb]. reflexivity.
Qed.
Lemma add_data_app bd enc g a b n : (length a mod 16 = 0)%nat -> (g_status g = ACC_HEADER \/ g_status g = ACC_CIPHER) -> (length (a ++ b) <= n)%nat ->
  add_data bd enc g n (a ++ b) (length (a ++ b)) =
  (r <- add_data bd enc g (length a) a (length a) ;; let '(_, o1, g1) := r in
   r <- add_data bd enc g1 (length b) b (length b) ;; let '(ok, o2, g2) := r in Some (ok, o1 ++ o2, g2)).
Proof.
  intros Ha Hs Hn. unfold add_data.
  replace (if Nat.eqb (g_status g) ACC_HEADER then ACC_CIPHER else g_status g) with ACC_CIPHER by (destruct Hs as [-> | ->]; reflexivity).
  cbn [negb Nat.eqb ACC_CIPHER]. rewrite !take_all. cbn [bind]. destruct (Nat.ltb_spec n (length (a ++ b))) as [L|_]; [lia|]. rewrite Nat.ltb_irrefl.
  rewrite mod16_app by exact Ha. rewrite app_length. rewrite crypt_loop_app by (try exact Ha; lia).
  destruct (crypt_loop bd enc (length a) (g_table g) (g_a g) a (g_statex g) (g_lenc g)) as [[[[o1 s1] l1] a1]|]; cbn [bind]; [|reflexivity].
  rewrite Ha. cbn [Nat.eqb g_status g_table g_statex g_lena g_lenc g_y0 g_a negb ACC_CIPHER ACC_HEADER]. rewrite Nat.ltb_irrefl.
  destruct (crypt_loop bd enc (length b) (g_table g) a1 b s1 l1) as [[[[o2 s2] l2] a2]|]; reflexivity.
Qed.
