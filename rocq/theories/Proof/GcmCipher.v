(** GCM sessions: invariant of the object between calls (release builds) *)
From Verif Require Import Base.Word Base.Arr Model.Aes Model.Gcm Spec.Bytes Spec.AesSpec Spec.GcmSpec Proof.AesBase Proof.AesBlock Proof.AesKey Proof.AesCipher Proof.GcmBase.

Lemma keyed_set_f a key f : keyed a key -> keyed (set_f a f) key.
Proof. intros H. exact H. Qed.
Lemma zeros16 : st_ok (repeat 0 16).
Proof. split; [reflexivity|apply zeros_ok]. Qed.
Lemma inc32_st cb : st_ok cb -> st_ok (inc32 cb).
Proof.
  intros [H1 H2]. unfold inc32. split; [rewrite app_length, i2osp_length, firstn_length; lia|]. apply Forall_app. split; [apply (Forall_fs byte_ok 12 cb H2)|apply i2osp_bytes].
Qed.
Lemma inc_ctr_release f : st_ok f -> inc_ctr Release f = Some (inc32 f).
Proof.
  intros [Hl Hb]. unfold inc_ctr, inc32. do 16 (destruct f as [|? f]; [discriminate Hl|]). destruct f; [|discriminate Hl].
  repeat match goal with H : Forall _ (_ :: _) |- _ => inversion H; subst; clear H end.
  unfold at_. cbn [nth firstn skipn]. rewrite gpack_os2ip by assumption. cbn [uadd bind]. unfold wrapu. rewrite gunpack_i2osp. f_equal. f_equal.
  apply i2osp_cong. change (256 ^ Z.of_nat 4) with (2 ^ 32). rewrite Z.mod_mod by lia. reflexivity.
Qed.
Fixpoint inc32n (n : nat) (cb : list Z) : list Z := match n with O => cb | S m => inc32n m (inc32 cb) end.
Lemma inc32n_st n : forall cb, st_ok cb -> st_ok (inc32n n cb).
Proof. induction n as [|n IH]; intros cb H; cbn; [exact H|]. apply IH, inc32_st, H. Qed.
Lemma inc32n_S n : forall cb, inc32n n (inc32 cb) = inc32 (inc32n n cb).
Proof. induction n as [|n IH]; intros cb; cbn; [reflexivity|]. apply IH. Qed.
Lemma gctr_blocks_app E xs : forall cb ys, gctr_blocks E cb (xs ++ ys) = gctr_blocks E cb xs ++ gctr_blocks E (inc32n (length xs) cb) ys.
Proof. induction xs as [|x xs IH]; intros cb ys; [reflexivity|]. cbn [app gctr_blocks length inc32n]. rewrite IH, app_assoc. reflexivity. Qed.
Lemma chunks_le l : forall x, In x (chunks 16 l) -> (length x <= 16)%nat.
Proof.
  unfold chunks. generalize (length l). intros f. revert l. induction f as [|f IH]; intros l x; [intros []|]. cbn [chunks_fuel]. destruct l as [|y l]; [intros []|].
  intros [<-|H]; [rewrite firstn_length; lia|]. apply (IH _ _ H).
Qed.

Section Keyed.
Variable key : list Z.
Hypothesis Hkl : keylen key.
Hypothesis Hkb : Forall byte_ok key.
Let E := aes_enc key.
Lemma E_ok b : st_ok b -> st_ok (E b).
Proof. apply aes_enc_ok; assumption. Qed.

Lemma gctr_blocks_len cb l : st_ok cb -> length (gctr_blocks E cb (chunks 16 l)) = length l.
Proof.
  unfold chunks. remember (length l) as f eqn:Q. assert (Hf : (length l <= f)%nat) by lia. rewrite Q. clear Q. revert l Hf cb.
  induction f as [|f IH]; intros l Hf cb Hcb; [destruct l; [reflexivity|cbn in Hf; lia]|]. destruct l as [|x l]; [reflexivity|].
  rewrite chunks_fuel_enough by lia. rewrite chunks_cons by (try discriminate; lia). cbn [gctr_blocks]. rewrite app_length, xorl_length.
  destruct (E_ok cb Hcb) as [-> _]. rewrite <- (chunks_fuel_enough 16 ltac:(lia) (length (skipn 16 (x :: l)))) by lia.
  rewrite IH; [|rewrite skipn_length; cbn [length] in *; lia|apply inc32_st, Hcb]. rewrite firstn_length, skipn_length. cbn [length]. lia.
Qed.
Lemma gctr_bytes cb l : st_ok cb -> Forall byte_ok l -> Forall byte_ok (gctr E cb l).
Proof.
  unfold gctr, chunks. generalize (length l). intros f. revert l cb. induction f as [|f IH]; intros l cb Hcb Hl; [constructor|].
  cbn [chunks_fuel]. destruct l as [|x l]; [constructor|]. cbn [gctr_blocks]. destruct (Forall_fs byte_ok 16 _ Hl) as [F1 F2]. apply Forall_app. split.
  - apply xorl_bytes; [exact F1|apply E_ok, Hcb].
  - apply IH; [apply inc32_st, Hcb|exact F2].
Qed.
Lemma gctr_cons cb l : l <> [] -> gctr E cb l = xorl (firstn 16 l) (E cb) ++ gctr E (inc32 cb) (skipn 16 l).
Proof. intros H. unfold gctr. rewrite chunks_cons by (try exact H; lia). reflexivity. Qed.
Lemma gctr_len cb l : st_ok cb -> length (gctr E cb l) = length l.
Proof. apply gctr_blocks_len. Qed.
Lemma gctr_app cb a b : (length a mod 16 = 0)%nat -> gctr E cb (a ++ b) = gctr E cb a ++ gctr E (inc32n (length (chunks 16 a)) cb) b.
Proof. intros H. unfold gctr. rewrite chunks_app by (try exact H; lia). apply gctr_blocks_app. Qed.
(** GCTR is an involution *)
Lemma gctr_invol l : forall cb, st_ok cb -> Forall byte_ok l -> gctr E cb (gctr E cb l) = l.
Proof.
  remember (length l) as f eqn:Q. assert (Hf : (length l <= f)%nat) by lia. clear Q. revert l Hf. induction f as [|f IH]; intros l Hf cb Hcb Hl.
  - destruct l; [reflexivity|cbn in Hf; lia].
  - destruct l as [|x l0]; [reflexivity|]. assert (ND : x :: l0 <> []) by discriminate. assert (LL : length (x :: l0) = S (length l0)) by reflexivity. revert Hf Hl ND LL. generalize (x :: l0). intros l Hf Hl ND LL.
    destruct (Forall_fs byte_ok 16 l Hl) as [F1 F2]. destruct (E_ok cb Hcb) as [EL EB].
    rewrite (gctr_cons cb l ND). set (o := xorl (firstn 16 l) (E cb)).
    assert (Lo : length o = length (firstn 16 l)) by (unfold o; rewrite xorl_length, EL, firstn_length; lia).
    rewrite gctr_cons.
    2:{ intros Q. apply app_eq_nil in Q. destruct Q as [Q _]. apply length_zero_iff_nil in Q. rewrite Lo, firstn_length in Q. lia. }
    destruct (Nat.le_gt_cases 16 (length l)) as [C|C].
    + assert (L16 : length o = 16%nat) by (rewrite Lo, firstn_length; lia). rewrite firstn_app, skipn_app. rewrite L16, Nat.sub_diag. rewrite firstn_O, skipn_O. rewrite app_nil_r.
      rewrite firstn_all2, skipn_all2 by lia. cbn [app]. rewrite IH; [|rewrite skipn_length; lia|apply inc32_st, Hcb|exact F2].
      unfold o. rewrite xorl_invol by (rewrite EL, firstn_length; lia). apply firstn_skipn.
    + assert (S0 : skipn 16 l = []) by (apply skipn_all2; lia). rewrite S0. change (gctr E (inc32 cb) []) with (@nil Z). rewrite app_nil_r.
      rewrite firstn_length in Lo. rewrite firstn_all2, skipn_all2 by lia. change (gctr E (inc32 cb) []) with (@nil Z). rewrite app_nil_r.
      unfold o. rewrite xorl_invol by (rewrite EL, firstn_length; lia). apply firstn_all2. lia.
Qed.

(** ** the object between calls: A = header bytes, C = ciphertext bytes so far *)
Variable J0 : list Z.
Hypothesis HJ0 : st_ok J0.
Let H := E (repeat 0 16).
Lemma H_ok : st_ok H.
Proof. apply E_ok, zeros16. Qed.
Definition phase_ok (s : nat) (A C : list Z) : Prop :=
  (s = ACC_HEADER /\ (length A mod 16 = 0)%nat /\ C = []) \/ (s = ACC_CIPHER /\ (length C mod 16 = 0)%nat) \/ s = NOT_MORE.
Record ginv (g : gcm) (A C : list Z) : Prop := {
  gi_t : g_table g = precompute H;
  gi_s : g_statex g = fold_left (gstep H) (padded_blocks A ++ padded_blocks C) (repeat 0 16);
  gi_y : g_y0 g = J0;
  gi_la : len_ok (g_lena g); gi_lav : lv (g_lena g) mod 2 ^ 64 = Z.of_nat (length A) mod 2 ^ 64;
  gi_lc : len_ok (g_lenc g); gi_lcv : lv (g_lenc g) mod 2 ^ 64 = Z.of_nat (length C) mod 2 ^ 64;
  gi_k : keyed (g_a g) key;
  gi_f : a_f (g_a g) = inc32n (length (chunks 16 C)) J0;
  gi_ph : phase_ok (g_status g) A C }.
Lemma fold_st bs : forall y, st_ok y -> st_ok (fold_left (gstep H) bs y).
Proof. induction bs as [|b bs IH]; intros y Hy; [exact Hy|]. cbn [fold_left]. apply IH, gstep_st. Qed.
Lemma take_all l : take_slice l (length l) = Some l.
Proof. unfold take_slice. rewrite Nat.leb_refl, firstn_all. reflexivity. Qed.
Lemma padded_app a b : (length a mod 16 = 0)%nat -> padded_blocks (a ++ b) = padded_blocks a ++ padded_blocks b.
Proof. intros. unfold padded_blocks. rewrite chunks_app by (try assumption; lia). apply map_app. Qed.

Lemma header_ok g A h : ginv g A [] -> g_status g = ACC_HEADER -> Forall byte_ok h ->
  exists g', add_header Release g h (length h) = Some (true, g') /\ ginv g' (A ++ h) [] /\ g_status g' = (if Nat.eqb (length h mod 16) 0 then ACC_HEADER else ACC_CIPHER).
Proof.
  intros G Hs Hh. unfold add_header. rewrite Hs. cbn [negb Nat.eqb ACC_HEADER]. rewrite take_all. cbn [bind]. rewrite (gi_t _ _ _ G).
  assert (HA : (length A mod 16 = 0)%nat). { destruct (gi_ph _ _ _ G) as [[_ [Q _]]|[[Q _]|Q]]; [exact Q|rewrite Hs in Q; discriminate|rewrite Hs in Q; discriminate]. }
  assert (SS : st_ok (g_statex g)) by (rewrite (gi_s _ _ _ G); apply fold_st, zeros16).
  destruct (hash_loop_release H H_ok (length h) h (g_statex g) (g_lena g) ltac:(lia) Hh SS (gi_la _ _ _ G)) as [l' [E1 [E2 [E3 E4]]]].
  rewrite E1. cbn [bind fst snd]. eexists. split; [reflexivity|]. split.
  - split; cbn [g_table g_statex g_y0 g_lena g_lenc g_status g_a]; try apply G; try reflexivity; try assumption.
    + rewrite padded_app by exact HA. rewrite (gi_s _ _ _ G). change (padded_blocks []) with (@nil (list Z)). rewrite !app_nil_r. rewrite fold_left_app. reflexivity.
    + rewrite E3. rewrite <- Z.add_mod_idemp_l by lia. rewrite (gi_lav _ _ _ G). rewrite Z.add_mod_idemp_l by lia. rewrite app_length. f_equal. lia.
    + destruct (Nat.eqb_spec (length h mod 16) 0) as [Q|Q].
      * left. split; [reflexivity|]. split; [|reflexivity]. rewrite app_length, Nat.add_mod by lia. rewrite HA, Q. reflexivity.
      * right. left. split; reflexivity.
  - reflexivity.
Qed.

Lemma crypt_loop_cons bd enc f table a inp st l : inp <> [] -> crypt_loop bd enc (S f) table a inp st l =
  (f' <- inc_ctr bd (a_f a) ;; l <- len_add bd (length (firstn 16 inp)) l ;;
   st <- gf2mul bd table (absorb_block st (if enc then xorl (firstn 16 inp) (ecb_encrypt (set_f a f') f') else firstn 16 inp)) ;;
   r <- crypt_loop bd enc f table (set_f a f') (skipn 16 inp) st l ;;
   let '(o, st2, l2, a2) := r in Some (xorl (firstn 16 inp) (ecb_encrypt (set_f a f') f') ++ o, st2, l2, a2)).
Proof. destruct inp; [congruence|]. cbn [crypt_loop]. destruct (inc_ctr bd (a_f a)); reflexivity. Qed.
Lemma crypt_loop_release enc : forall fuel inp a st l, (length inp <= fuel)%nat -> Forall byte_ok inp -> st_ok st -> len_ok l -> keyed a key -> st_ok (a_f a) ->
  exists l' a', crypt_loop Release enc fuel (precompute H) a inp st l
      = Some (gctr E (inc32 (a_f a)) inp, fold_left (gstep H) (padded_blocks (if enc then gctr E (inc32 (a_f a)) inp else inp)) st, l', a')
    /\ len_ok l' /\ lv l' mod 2 ^ 64 = (lv l + Z.of_nat (length inp)) mod 2 ^ 64 /\ keyed a' key /\ a_f a' = inc32n (length (chunks 16 inp)) (a_f a).
Proof.
  induction fuel as [|f IH]; intros inp a st l Hf Hd Hs Hl Ha Hfa.
  - destruct inp; [|cbn in Hf; lia]. exists l, a. split; [destruct enc; reflexivity|]. split; [exact Hl|]. split; [f_equal; cbn; lia|]. auto.
  - destruct inp as [|x inp0].
    { exists l, a. split; [destruct enc; reflexivity|]. split; [exact Hl|]. split; [f_equal; cbn; lia|]. auto. }
    assert (ND : x :: inp0 <> []) by discriminate. assert (LL : length (x :: inp0) = S (length inp0)) by reflexivity. revert Hf Hd ND LL. generalize (x :: inp0). intros inp Hf Hd ND LL.
    rewrite crypt_loop_cons by exact ND. rewrite inc_ctr_release by exact Hfa. cbn [bind].
    set (f1 := inc32 (a_f a)). assert (Sf1 : st_ok f1) by (apply inc32_st, Hfa).
    assert (EE : ecb_encrypt (set_f a f1) f1 = E f1) by (apply keyed_enc; [apply keyed_set_f, Ha|exact Sf1]). rewrite EE.
    destruct (Forall_fs byte_ok 16 inp Hd) as [F1 F2]. destruct (E_ok f1 Sf1) as [EL EB].
    set (blk := firstn 16 inp) in *. assert (LB : (length blk <= 16)%nat) by (unfold blk; rewrite firstn_length; lia).
    set (out := xorl blk (E f1)). assert (LO : length out = length blk) by (unfold out; rewrite xorl_length, EL; lia).
    assert (FO : Forall byte_ok out) by (apply xorl_bytes; assumption).
    destruct (len_add_release (length blk) l Hl) as [l1 [E1 [H1 V1]]]. rewrite E1. cbn [bind].
    set (hb := if enc then out else blk). assert (LH : (length hb <= 16)%nat) by (unfold hb; destruct enc; lia). assert (FH : Forall byte_ok hb) by (unfold hb; destruct enc; assumption).
    rewrite absorb_release by (try assumption; apply H_ok). cbn [bind].
    assert (LS : (length (skipn 16 inp) <= f)%nat) by (rewrite skipn_length; lia).
    destruct (IH (skipn 16 inp) (set_f a f1) (gstep H st (pad_block hb)) l1 LS F2 (gstep_st _ _ _) H1 (keyed_set_f a key f1 Ha) Sf1) as [l2 [a2 [E2 [H2 [V2 [K2 A2]]]]]].
    cbn [set_f a_f] in E2, A2. rewrite E2. cbn [bind]. exists l2, a2.
    assert (EO : gctr E f1 inp = out ++ gctr E (inc32 f1) (skipn 16 inp)) by (apply gctr_cons; exact ND).
    split.
    + rewrite EO. f_equal. f_equal. f_equal. f_equal.
      destruct enc.
      * unfold padded_blocks at 2. rewrite (chunks_cons 16 (out ++ _)).
        2: lia. 2:{ intros Q. apply app_eq_nil in Q. destruct Q as [Q _]. apply length_zero_iff_nil in Q. rewrite LO in Q. unfold blk in Q. rewrite firstn_length in Q. lia. }
        destruct (Nat.le_gt_cases 16 (length inp)) as [C|C].
        -- assert (L16 : length out = 16%nat) by (rewrite LO; unfold blk; rewrite firstn_length; lia).
           rewrite firstn_app, skipn_app. rewrite L16, Nat.sub_diag. rewrite firstn_O, skipn_O. rewrite app_nil_r. rewrite (firstn_all2 out), (skipn_all2 out) by lia. reflexivity.
        -- assert (S0 : skipn 16 inp = []) by (apply skipn_all2; lia). rewrite S0. change (gctr E (inc32 f1) []) with (@nil Z). rewrite app_nil_r.
           rewrite (firstn_all2 out), (skipn_all2 out) by lia. reflexivity.
      * unfold padded_blocks at 2. rewrite (chunks_cons 16 inp) by (try exact ND; lia). reflexivity.
    + split; [exact H2|]. split.
      * rewrite V2. rewrite <- Z.add_mod_idemp_l by lia. rewrite V1. rewrite Z.add_mod_idemp_l by lia. f_equal. unfold blk. rewrite firstn_length, skipn_length. lia.
      * split; [exact K2|]. rewrite A2. rewrite (chunks_cons 16 inp) by (try exact ND; lia). reflexivity.
Qed.
Lemma chunks_count f : forall l, (length l <= f)%nat -> length (chunks 16 l) = ((length l + 15) / 16)%nat.
Proof.
  induction f as [|f IH]; intros l Hf.
  - destruct l; [reflexivity|cbn in Hf; lia].
  - destruct l as [|x l0]; [reflexivity|]. assert (ND : x :: l0 <> []) by discriminate. assert (LL : length (x :: l0) = S (length l0)) by reflexivity. revert Hf ND LL. generalize (x :: l0). intros l Hf ND LL.
    rewrite chunks_cons by (try exact ND; lia). cbn [length]. rewrite IH by (rewrite skipn_length; lia). rewrite skipn_length.
    destruct (Nat.le_gt_cases 16 (length l)) as [C|C].
    + replace (length l + 15)%nat with (length l - 16 + 15 + 1 * 16)%nat by lia. rewrite Nat.div_add by lia. lia.
    + replace (length l - 16)%nat with 0%nat by lia. change ((0 + 15) / 16)%nat with 0%nat. apply (Nat.div_unique _ 16 1 (length l - 1)); lia.
Qed.
Lemma data_ok enc g A C d n : ginv g A C -> (g_status g = ACC_HEADER \/ g_status g = ACC_CIPHER) -> Forall byte_ok d -> (length d <= n)%nat ->
  exists g', add_data Release enc g n d (length d) = Some (true, gctr E (inc32 (inc32n (length (chunks 16 C)) J0)) d, g')
    /\ ginv g' A (C ++ (if enc then gctr E (inc32 (inc32n (length (chunks 16 C)) J0)) d else d))
    /\ g_status g' = (if Nat.eqb (length d mod 16) 0 then ACC_CIPHER else NOT_MORE).
Proof.
  intros G Hs Hd Hn. unfold add_data.
  replace (if Nat.eqb (g_status g) ACC_HEADER then ACC_CIPHER else g_status g) with ACC_CIPHER by (destruct Hs as [-> | ->]; reflexivity).
  cbn [negb Nat.eqb ACC_CIPHER]. rewrite take_all. cbn [bind]. destruct (Nat.ltb_spec n (length d)) as [L|_]; [lia|]. rewrite (gi_t _ _ _ G).
  assert (HC : (length C mod 16 = 0)%nat).
  { destruct (gi_ph _ _ _ G) as [[_ [_ Q]]|[[_ Q]|Q]]; [rewrite Q; reflexivity|exact Q|rewrite Q in Hs; destruct Hs; discriminate]. }
  assert (SS : st_ok (g_statex g)) by (rewrite (gi_s _ _ _ G); apply fold_st, zeros16).
  assert (SF : st_ok (a_f (g_a g))) by (rewrite (gi_f _ _ _ G); apply inc32n_st, HJ0).
  destruct (crypt_loop_release enc (length d) d (g_a g) (g_statex g) (g_lenc g) ltac:(lia) Hd SS (gi_lc _ _ _ G) (gi_k _ _ _ G) SF) as [l' [a' [E1 [E2 [E3 [E4 E5]]]]]].
  rewrite E1. cbn [bind]. rewrite (gi_f _ _ _ G) in *. eexists. split; [reflexivity|]. split; [|reflexivity].
  set (cb := inc32n (length (chunks 16 C)) J0) in *. assert (Scb : st_ok (inc32 cb)) by (apply inc32_st; exact SF).
  set (nc := if enc then gctr E (inc32 cb) d else d) in *. assert (Lnc : length nc = length d) by (unfold nc; destruct enc; [apply gctr_len; exact Scb|reflexivity]).
  split; cbn [g_table g_statex g_y0 g_lena g_lenc g_status g_a]; try apply G; try reflexivity; try assumption.
  - rewrite padded_app by exact HC. rewrite (gi_s _ _ _ G), app_assoc, (fold_left_app _ (padded_blocks A ++ padded_blocks C)). reflexivity.
  - rewrite E3. rewrite <- Z.add_mod_idemp_l by lia. rewrite (gi_lcv _ _ _ G). rewrite Z.add_mod_idemp_l by lia. rewrite app_length, Lnc. f_equal. lia.
  - rewrite E5. rewrite chunks_app by (try exact HC; lia). rewrite app_length.
    replace (length (chunks 16 nc)) with (length (chunks 16 d)) by (rewrite !(chunks_count (length d)) by lia; rewrite Lnc; reflexivity).
    unfold cb. clear. generalize (length (chunks 16 C)) (length (chunks 16 d)). intros a b. revert J0. induction a as [|a IH]; intros j; [reflexivity|]. cbn [inc32n Nat.add]. apply IH.
  - destruct (Nat.eqb_spec (length d mod 16) 0) as [Q|Q]; [right; left|right; right; reflexivity]. split; [reflexivity|]. rewrite app_length, Lnc, Nat.add_mod by lia. rewrite HC, Q. reflexivity.
Qed.
Lemma len64_st a c : st_ok (len64 a ++ len64 c).
Proof. split; [rewrite app_length; unfold len64; rewrite !i2osp_length; reflexivity|]. apply Forall_app. split; apply i2osp_bytes. Qed.
Lemma wrap_ok g A C : ginv g A C -> exists g', gwrap Release g = Some g' /\ g_statex g' = ghash_spec H (padded_blocks A ++ padded_blocks C ++ [len64 A ++ len64 C])
  /\ g_y0 g' = J0 /\ keyed (g_a g') key /\ g_status g' = g_status g.
Proof.
  intros G. unfold gwrap. rewrite (len_block_ok _ _ A C) by apply G. rewrite (gi_t _ _ _ G).
  assert (SS : st_ok (g_statex g)) by (rewrite (gi_s _ _ _ G); apply fold_st, zeros16).
  rewrite gf2mul_release; [|exact H_ok|apply xor_st_ok; [exact SS|apply len64_st]]. cbn [bind]. eexists. split; [reflexivity|]. cbn [g_statex g_y0 g_a g_status].
  split; [|split; [apply G|split; [apply G|reflexivity]]]. unfold ghash_spec. fold (gstep H). rewrite app_assoc, fold_left_app. cbn [fold_left].
  change (fun y x : list Z => i2osp (gf_mul (os2ip (xorl y x)) (os2ip H)) 16) with (gstep H). rewrite <- (gi_s _ _ _ G). reflexivity.
Qed.
Lemma chunks_16 l : length l = 16%nat -> chunks 16 l = [l].
Proof.
  intros Hl. rewrite chunks_cons by (try lia; intros ->; discriminate). rewrite skipn_all2, firstn_all2 by lia. reflexivity.
Qed.
Lemma finish_ok g A C : ginv g A C -> exists g', gcm_finish Release g true = Some (gctr E J0 (gcm_S E A C), g') /\ g_status g' = FINISHED.
Proof.
  intros G. unfold gcm_finish. destruct (wrap_ok g A C G) as [g1 [-> [E1 [E2 [E3 E4]]]]]. cbn [bind]. match goal with |- exists _, Some (_, ?x) = _ /\ _ => exists x end. split; [|reflexivity]. f_equal. f_equal.
  rewrite E1, E2. rewrite (keyed_enc (g_a g1) key) by (try exact E3; apply HJ0). unfold gctr. change (gcm_S E A C) with (ghash_spec H (padded_blocks A ++ padded_blocks C ++ [len64 A ++ len64 C])).
  rewrite chunks_16; [cbn [gctr_blocks]; rewrite app_nil_r; apply xorl_comm|]. unfold ghash_spec. apply (fold_st _ (repeat 0 16) zeros16).
Qed.
End Keyed.

(** ** initialisation *)
Lemma init_ok g key iv : keylen key -> Forall byte_ok key -> Forall byte_ok iv ->
  st_ok (gcm_J0 (aes_enc key) iv) /\ exists g', gcm_init Release g (length key) key (length iv) iv = Some g' /\ ginv key (gcm_J0 (aes_enc key) iv) g' [] [] /\ g_status g' = ACC_HEADER.
Proof.
  intros Hl Hk Hiv. unfold gcm_init.
  assert (E4 : (4 * (length key / 4) = length key)%nat) by (destruct Hl as [->|[->| ->]]; reflexivity).
  destruct (init_keyed aes_new ECB (length key) key None) as [a [E1 [E2 _]]]; [split; reflexivity|exact Hk|lia|destruct Hl as [->|[->| ->]]; cbn; tauto|].
  rewrite E4, firstn_all in E2. rewrite E1. cbn [bind snd].
  rewrite (keyed_enc a key) by (try exact E2; apply zeros16). set (H := aes_enc key (repeat 0 16)). assert (HO : st_ok H) by (apply aes_enc_ok; try assumption; apply zeros16).
  assert (LZ : len_ok (0, 0)) by (unfold len_ok, u32; cbn [fst snd]; lia).
  unfold gcm_J0. destruct (Nat.eqb_spec (length iv) 12) as [E12|N12].
  - replace (take_slice iv 12) with (Some iv) by (rewrite <- E12; symmetry; apply take_all). cbn [bind]. split.
    + split; [rewrite app_length, E12; reflexivity|]. apply Forall_app. split; [exact Hiv|]. repeat constructor; unfold byte_ok; lia.
    + eexists. split; [reflexivity|]. split; [|reflexivity]. split; cbn [g_table g_statex g_y0 g_lena g_lenc g_status g_a]; try reflexivity; try exact LZ.
      * exact E2.
      * left. split; [reflexivity|]. split; reflexivity.
  - set (g0 := mkgcm (precompute H) (repeat 0 16) (g_y0 g) (0, 0) (0, 0) ACC_CIPHER a).
    unfold ghash. cbn [g_status g0 Nat.eqb ACC_CIPHER ACC_HEADER negb g_table g_statex g_lenc]. rewrite take_all. cbn [bind].
    destruct (hash_loop_release H HO (length iv) iv (repeat 0 16) (0, 0) ltac:(lia) Hiv zeros16 LZ) as [l' [E5 [E6 [E7 E8]]]]. rewrite E5. cbn [bind fst snd].
    unfold gwrap, g0. cbn [g_table g_statex g_lena g_lenc g_y0 g_status g_a].
    rewrite (len_block_ok (0, 0) l' [] iv LZ E6 eq_refl E7).
    rewrite gf2mul_release; [|exact HO|apply xor_st_ok; [exact E8|apply len64_st]]. cbn [bind].
    assert (EQ : i2osp (gf_mul (os2ip (xorl (fold_left (gstep H) (padded_blocks iv) (repeat 0 16)) (len64 [] ++ len64 iv))) (os2ip H)) 16
      = ghash_spec (gcm_H (aes_enc key)) (padded_blocks iv ++ [repeat 0 8 ++ len64 iv])).
    { unfold ghash_spec. rewrite fold_left_app. reflexivity. }
    rewrite EQ. split.
    + rewrite <- EQ. apply i2osp_st.
    + eexists. split; [reflexivity|]. cbn [g_statex]. split; [|reflexivity]. split; cbn [g_table g_statex g_y0 g_lena g_lenc g_status g_a]; try reflexivity; try exact LZ.
      * exact E2.
      * left. split; [reflexivity|]. split; reflexivity.
Qed.
