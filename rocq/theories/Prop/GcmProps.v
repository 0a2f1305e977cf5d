(** C27, C28, C29: GCM. *)
From Verif Require Import Base.Word Base.Arr Model.Aes Model.Gcm Spec.Bytes Spec.AesSpec Spec.GcmSpec Proof.AesBase Proof.AesBlock Proof.AesCipher Proof.GcmBase Proof.GcmCipher Proof.GcmChunk.

(** a whole session on an object in any earlier state: init, header pieces, data pieces, finish(true).
    Result: what each call returned, the output bytes, the tag. *)
Fixpoint run_headers (bd : build) (g : gcm) (hs : list (list Z)) : option (list bool * gcm) :=
  match hs with
  | [] => Some ([], g)
  | h :: t => r <- add_header bd g h (length h) ;; r2 <- run_headers bd (snd r) t ;; Some (fst r :: fst r2, snd r2)
  end.
Fixpoint run_data (bd : build) (enc : bool) (g : gcm) (ds : list (list Z)) : option (list bool * list Z * gcm) :=
  match ds with
  | [] => Some ([], [], g)
  | d :: t => r <- (if enc then add_plain bd else add_cipher bd) g (length d) d (length d) ;; let '(ok, o, g1) := r in
              r2 <- run_data bd enc g1 t ;; let '(oks, os, g2) := r2 in Some (ok :: oks, o ++ os, g2)
  end.
Definition session (bd : build) (enc : bool) (g : gcm) (key iv : list Z) (hs ds : list (list Z)) : option (list bool * list Z * list Z) :=
  g <- gcm_init bd g (length key) key (length iv) iv ;;
  rh <- run_headers bd g hs ;; rd <- run_data bd enc (snd rh) ds ;; let '(oks, o, g) := rd in
  rf <- gcm_finish bd g true ;; Some (fst rh ++ oks, o, fst rf).
(** every piece but the last has a length divisible by 16 *)
Fixpoint aligned (l : list (list Z)) : Prop :=
  match l with [] => True | [_] => True | x :: t => (length x mod 16 = 0)%nat /\ aligned t end.

Lemma aligned_tl x t : aligned (x :: t) -> aligned t.
Proof. destruct t; cbn; tauto. Qed.
Lemma headers_ok key iv : keylen key -> Forall byte_ok key -> forall hs g A, aligned hs -> Forall (Forall byte_ok) hs -> ginv key (gcm_J0 (aes_enc key) iv) g A [] -> g_status g = ACC_HEADER ->
  exists g', run_headers Release g hs = Some (repeat true (length hs), g') /\ ginv key (gcm_J0 (aes_enc key) iv) g' (A ++ concat hs) [] /\ (g_status g' = ACC_HEADER \/ g_status g' = ACC_CIPHER).
Proof.
  intros Hl Hk. induction hs as [|h hs IH]; intros g A Hal Hb G Hs.
  - exists g. cbn. rewrite app_nil_r. auto.
  - inversion Hb; subst. destruct (header_ok key Hl Hk _ g A h G Hs) as [g1 [E1 [G1 S1]]]; [assumption|]. cbn [run_headers]. rewrite E1. cbn [bind fst snd].
    destruct hs as [|h2 hs].
    + cbn [run_headers bind fst snd]. exists g1. split; [reflexivity|]. cbn [concat]. rewrite app_nil_r. split; [exact G1|]. destruct (Nat.eqb _ 0); auto.
    + destruct Hal as [Ha1 Ha2]. rewrite Ha1 in S1. destruct (IH g1 (A ++ h) Ha2 ltac:(assumption) G1 S1) as [g2 [E2 [G2 S2]]]. rewrite E2. cbn [bind fst snd]. exists g2.
      split; [reflexivity|]. split; [|exact S2]. cbn [concat] in *. rewrite app_assoc. exact G2.
Qed.
Lemma inc_chunks (E : list Z -> list Z) J C o : (length C mod 16 = 0)%nat -> inc32n (length (chunks 16 (C ++ o))) J = inc32n (length (chunks 16 o)) (inc32n (length (chunks 16 C)) J).
Proof.
  intros H. rewrite chunks_app by (try exact H; lia). rewrite app_length. generalize (length (chunks 16 C)) (length (chunks 16 o)). intros a b. revert J.
  induction a as [|a IH]; intros J; [reflexivity|]. cbn [inc32n Nat.add]. apply IH.
Qed.
Lemma data_all key iv enc : keylen key -> Forall byte_ok key -> Forall byte_ok iv -> forall ds g A C, aligned ds -> Forall (Forall byte_ok) ds ->
  ginv key (gcm_J0 (aes_enc key) iv) g A C -> (g_status g = ACC_HEADER \/ g_status g = ACC_CIPHER) ->
  let out := gctr (aes_enc key) (inc32 (inc32n (length (chunks 16 C)) (gcm_J0 (aes_enc key) iv))) (concat ds) in
  exists g', run_data Release enc g ds = Some (repeat true (length ds), out, g') /\ ginv key (gcm_J0 (aes_enc key) iv) g' A (C ++ (if enc then out else concat ds)).
Proof.
  intros Hl Hk Hiv. set (J := gcm_J0 (aes_enc key) iv). destruct (init_ok gcm_new key iv Hl Hk Hiv) as [SJ _]. fold J in SJ.
  induction ds as [|d ds IH]; intros g A C Hal Hb G Hs; cbv zeta.
  - exists g. cbn [run_data length repeat concat]. unfold gctr. cbn. destruct enc; rewrite app_nil_r; auto.
  - inversion Hb; subst. destruct (data_ok key Hl Hk J SJ enc g A C d (length d) G Hs) as [g1 [E1 [G1 S1]]]; [assumption|lia|].
    cbn [run_data]. unfold add_plain, add_cipher. replace ((if enc then add_data Release true else add_data Release false) g (length d) d (length d)) with (add_data Release enc g (length d) d (length d)) by (destruct enc; reflexivity).
    rewrite E1. cbn [bind].
    assert (HC : (length C mod 16 = 0)%nat).
    { destruct (gi_ph _ _ _ _ _ G) as [[_ [_ Q]]|[[_ Q]|Q]]; [rewrite Q; reflexivity|exact Q|rewrite Q in Hs; destruct Hs; discriminate]. }
    destruct ds as [|d2 ds].
    + cbn [run_data bind]. exists g1. cbn [concat]. rewrite !app_nil_r. split; [reflexivity|exact G1].
    + destruct Hal as [Ha1 Ha2]. rewrite Ha1 in S1. cbn [Nat.eqb] in S1.
      set (cb := inc32n (length (chunks 16 C)) J) in *. assert (Scb : st_ok cb) by (apply inc32n_st, SJ).
      set (o1 := if enc then gctr (aes_enc key) (inc32 cb) d else d) in *.
      assert (Lo : length o1 = length d) by (unfold o1; destruct enc; [apply gctr_len; try assumption; apply inc32_st, Scb|reflexivity]).
      specialize (IH g1 A (C ++ o1) Ha2 ltac:(assumption) G1 (or_intror S1)). cbv zeta in IH. destruct IH as [g2 [E2 G2]].
      rewrite (inc_chunks (aes_enc key) J C o1 HC) in E2, G2. fold cb in E2, G2.
      rewrite (chunks_count (length o1) o1) in E2, G2 by lia. rewrite Lo in E2, G2. rewrite <- (chunks_count (length d) d) in E2, G2 by lia.
      rewrite E2. cbn [bind]. exists g2. change (concat (d :: d2 :: ds)) with (d ++ concat (d2 :: ds)). set (rest := concat (d2 :: ds)) in *.
      rewrite (gctr_app key (inc32 cb) d rest Ha1). rewrite inc32n_S. split; [reflexivity|].
      unfold o1 in G2. destruct enc; rewrite app_assoc; exact G2.
Qed.

Lemma xorl_zeros l : forall k, length l = k -> xorl l (repeat 0 k) = l.
Proof. induction l as [|x l IH]; intros k H; [reflexivity|]. destruct k; [discriminate|]. cbn [repeat xorl]. rewrite Z.lxor_0_r, IH by (cbn in H; congruence). reflexivity. Qed.
(** ** C27: authenticated encryption of SP 800-38D, for every key, IV length, header and plaintext, split over any number of
    calls at block boundaries, on a new or re-used object (release builds; debug builds are refuted below) *)
Theorem C27_encrypt : forall g key iv hs ps, keylen key -> Forall byte_ok key -> Forall byte_ok iv -> aligned hs -> aligned ps -> Forall (Forall byte_ok) hs -> Forall (Forall byte_ok) ps ->
  session Release true g key iv hs ps = Some (repeat true (length hs + length ps), fst (gcm_ae (aes_enc key) iv (concat ps) (concat hs)), snd (gcm_ae (aes_enc key) iv (concat ps) (concat hs))).
Proof.
  intros g key iv hs ps Hl Hk Hiv A1 A2 B1 B2. unfold session. destruct (init_ok g key iv Hl Hk Hiv) as [SJ [g0 [-> [G0 S0]]]]. cbn [bind].
  destruct (headers_ok key iv Hl Hk hs g0 [] A1 B1 G0 S0) as [g1 [-> [G1 S1]]]. cbn [bind fst snd].
  destruct (data_all key iv true Hl Hk Hiv ps g1 _ _ A2 B2 G1 S1) as [g2 [-> G2]]. cbn [bind]. cbn [app] in G2.
  destruct (finish_ok key Hl Hk _ SJ g2 _ _ G2) as [g3 [-> _]]. cbn [bind fst snd]. rewrite <- repeat_app. reflexivity.
Qed.
Print Assumptions C27_encrypt.
(** authenticated decryption: the plaintext and the tag to be compared *)
Theorem C27_decrypt : forall g key iv hs cs, keylen key -> Forall byte_ok key -> Forall byte_ok iv -> aligned hs -> aligned cs -> Forall (Forall byte_ok) hs -> Forall (Forall byte_ok) cs ->
  session Release false g key iv hs cs = Some (repeat true (length hs + length cs), fst (gcm_ad (aes_enc key) iv (concat cs) (concat hs)), snd (gcm_ad (aes_enc key) iv (concat cs) (concat hs))).
Proof.
  intros g key iv hs ps Hl Hk Hiv A1 A2 B1 B2. unfold session. destruct (init_ok g key iv Hl Hk Hiv) as [SJ [g0 [-> [G0 S0]]]]. cbn [bind].
  destruct (headers_ok key iv Hl Hk hs g0 [] A1 B1 G0 S0) as [g1 [-> [G1 S1]]]. cbn [bind fst snd].
  destruct (data_all key iv false Hl Hk Hiv ps g1 _ _ A2 B2 G1 S1) as [g2 [-> G2]]. cbn [bind]. cbn [app] in G2.
  destruct (finish_ok key Hl Hk _ SJ g2 _ _ G2) as [g3 [-> _]]. cbn [bind fst snd]. rewrite <- repeat_app. reflexivity.
Qed.
Print Assumptions C27_decrypt.
(** only the announced number of bytes of the caller's slices matters *)
Theorem C27_prefix : forall bd enc g n d len, (len <= length d)%nat ->
  add_header bd g d len = add_header bd g (firstn len d) len /\ add_data bd enc g n d len = add_data bd enc g n (firstn len d) len.
Proof.
  intros bd enc g n d len H. assert (E : take_slice (firstn len d) len = take_slice d len).
  { unfold take_slice. rewrite firstn_length, Nat.min_l by lia. rewrite Nat.leb_refl, firstn_firstn, Nat.min_id. destruct (Nat.leb_spec len (length d)); [reflexivity|lia]. }
  unfold add_header, add_data. rewrite E. auto.
Qed.
Print Assumptions C27_prefix.
(** debug builds: the mask computation (!c)+1 overflows for a zero bit, so a call that has to multiply panics unless the
    hash state happens to be all ones; in particular the empty session always panics *)
Theorem C27_debug_refuted : forall g key iv, keylen key -> Forall byte_ok key -> Forall byte_ok iv -> length iv = 12%nat ->
  exists g0, gcm_init Debug g (length key) key (length iv) iv = Some g0 /\ gcm_finish Debug g0 true = None
    /\ (forall n d, d <> [] -> Forall byte_ok d -> pad_block (firstn 16 d) <> repeat 255 16 -> add_header Debug g0 d (length d) = None /\ add_cipher Debug g0 n d (length d) = None).
Proof.
  intros g key iv Hl Hk Hiv H12. destruct (init_ok g key iv Hl Hk Hiv) as [SJ [g0 [E0 [G0 S0]]]]. exists g0.
  assert (ED : gcm_init Debug g (length key) key (length iv) iv = gcm_init Release g (length key) key (length iv) iv) by (unfold gcm_init; rewrite H12; reflexivity).
  split; [congruence|].
  pose proof (H_ok key Hl Hk) as HO. pose proof (gi_t _ _ _ _ _ G0) as GT. pose proof (gi_s _ _ _ _ _ G0) as GS. change (padded_blocks []) with (@nil (list Z)) in GS. cbn [app fold_left] in GS.
  assert (F255 : forall st, st_ok st -> os2ip st = 2 ^ 128 - 1 -> st = repeat 255 16).
  { intros st [Q1 Q2] Q3. apply os2ip_inj; [exact Q2| |exact Q1|exact Q3]. apply Forall_forall. intros x Hx. apply repeat_spec in Hx. subst. unfold is_byte. lia. }
  split.
  - unfold gcm_finish, gwrap. rewrite GT, GS. rewrite (len_block_ok _ _ [] [] (gi_la _ _ _ _ _ G0) (gi_lc _ _ _ _ _ G0) (gi_lav _ _ _ _ _ G0) (gi_lcv _ _ _ _ _ G0)).
    destruct (gf2mul Debug _ _) as [r|] eqn:EG; [|reflexivity]. exfalso. apply gf2mul_debug in EG; [|exact HO|split; [reflexivity|apply xorl_bytes; [apply zeros_ok|apply len64_st]]].
    revert EG. vm_compute. discriminate.
  - intros n d ND Fd Hp. assert (L16 : (length (firstn 16 d) <= 16)%nat) by (rewrite firstn_length; lia). destruct (Forall_fs byte_ok 16 d Fd) as [F1 _].
    assert (EA : gf2mul Debug (precompute (aes_enc key (repeat 0 16))) (absorb_block (repeat 0 16) (firstn 16 d)) = None).
    { destruct (gf2mul Debug _ _) as [r|] eqn:EG; [|reflexivity]. exfalso. rewrite absorb_pad in EG by (try exact L16; reflexivity).
      apply gf2mul_debug in EG; [|exact HO|apply xor_st_ok; [apply zeros16|apply pad_ok; assumption]]. apply F255 in EG; [|apply xor_st_ok; [apply zeros16|apply pad_ok; assumption]].
      apply Hp. rewrite <- EG. destruct (pad_ok _ L16 F1) as [P1 _]. rewrite xorl_comm. rewrite xorl_zeros by exact P1. reflexivity. }
    assert (LD : exists m, length d = S m) by (destruct d as [|x d]; [congruence|cbn; eauto]). destruct LD as [m LD].
    split.
    + unfold add_header. rewrite S0. cbn [negb Nat.eqb ACC_HEADER]. rewrite take_all. cbn [bind]. rewrite LD, hash_loop_cons by exact ND. rewrite GT, GS.
      destruct (len_add Debug _ _); cbn [bind]; [|reflexivity]. rewrite EA. reflexivity.
    + unfold add_cipher, add_data. rewrite S0. cbn [negb Nat.eqb ACC_HEADER ACC_CIPHER]. rewrite take_all. cbn [bind]. destruct (Nat.ltb _ _); [reflexivity|].
      rewrite LD, crypt_loop_cons by exact ND. rewrite GT, GS. destruct (inc_ctr Debug _); cbn [bind]; [|reflexivity].
      destruct (len_add Debug _ _); cbn [bind]; [|reflexivity]. rewrite EA. reflexivity.
Qed.
Print Assumptions C27_debug_refuted.
(** init does not report an unsupported key length: the key is then ignored *)
Theorem C27_bad_key_refuted : forall bd g nk key key' niv iv, ~ In (nk / 4)%nat [4%nat; 6%nat; 8%nat] -> gcm_init bd g nk key niv iv = gcm_init bd g nk key' niv iv.
Proof.
  intros bd g nk key key' niv iv H. unfold gcm_init. assert (E : forall k, aes_init aes_new ECB nk k None = Some (false, aes_new)); [|rewrite !E; reflexivity].
  intros k. unfold aes_init. destruct (Nat.eqb_spec (nk / 4) 4) as [E|_]; [exfalso; apply H; rewrite E; cbn; tauto|]. destruct (Nat.eqb_spec (nk / 4) 6) as [E|_]; [exfalso; apply H; rewrite E; cbn; tauto|].
  destruct (Nat.eqb_spec (nk / 4) 8) as [E|_]; [exfalso; apply H; rewrite E; cbn; tauto|]. reflexivity.
Qed.
Print Assumptions C27_bad_key_refuted.
Definition ex_key := map Z.of_nat (seq 3 24).
Definition ex_iv := map Z.of_nat (seq 100 13).
Definition ex_h := map Z.of_nat (seq 0 20).
Definition ex_p := [map Z.of_nat (seq 0 32); map Z.of_nat (seq 7 5)].
Example C27_ex : match session Release true gcm_new ex_key ex_iv [ex_h] ex_p with
  | Some (oks, c, t) => oks = [true; true; true] /\ length c = 37%nat /\ t = snd (gcm_ae (aes_enc ex_key) ex_iv (concat ex_p) ex_h) /\ c <> concat ex_p | None => False end.
Proof. vm_compute. repeat split; discriminate. Qed.

(** ** C28: decryption gives back the plaintext and the same tag, however either side cuts the data *)
Theorem C28_round_trip : forall g g' key iv hs hs' ps cs oks c tag, keylen key -> Forall byte_ok key -> Forall byte_ok iv -> aligned hs -> aligned hs' -> aligned ps -> aligned cs ->
  Forall (Forall byte_ok) hs -> Forall (Forall byte_ok) hs' -> Forall (Forall byte_ok) ps -> concat hs' = concat hs ->
  session Release true g key iv hs ps = Some (oks, c, tag) -> concat cs = c -> exists oks', session Release false g' key iv hs' cs = Some (oks', concat ps, tag) /\ forallb (fun b => b) oks' = true.
Proof.
  intros g g' key iv hs hs' ps cs oks c tag Hl Hk Hiv A1 A2 A3 A4 B1 B2 B3 Eh E1 Ec. rewrite C27_encrypt in E1 by assumption. cbn [gcm_ae fst snd] in E1. inversion E1 as [[Q1 Q2 Q3]].
  destruct (init_ok g key iv Hl Hk Hiv) as [SJ _].
  assert (Bp : Forall byte_ok (concat ps)). { clear -B3. induction B3; cbn; [constructor|apply Forall_app; auto]. }
  assert (Bc : Forall byte_ok c) by (rewrite <- Q2; apply gctr_bytes; try assumption; apply inc32_st, SJ).
  assert (B4 : Forall (Forall byte_ok) cs). { rewrite <- Ec in Bc. clear -Bc. induction cs as [|x cs IH]; [constructor|]. cbn [concat] in Bc. apply Forall_app in Bc. constructor; tauto. }
  rewrite C27_decrypt by assumption. rewrite Ec, Eh. cbn [gcm_ad fst snd]. rewrite <- Q2. rewrite gctr_invol by (try assumption; apply inc32_st, SJ).
  eexists. split; [reflexivity|]. clear. generalize (length hs' + length cs)%nat. intros n. induction n; [reflexivity|]. cbn. exact IHn.
Qed.
Print Assumptions C28_round_trip.
Example C28_ex : match session Release true gcm_new ex_key ex_iv [ex_h] ex_p with
  | Some (_, c, t) => session Release false gcm_new ex_key ex_iv [firstn 16 ex_h; skipn 16 ex_h] [firstn 16 c; skipn 16 c] = Some ([true; true; true; true], concat ex_p, t) | None => False end.
Proof. vm_compute. reflexivity. Qed.

(** ** C29: order of calls *)
Inductive gcall := CHeader (d : list Z) | CPlain (d : list Z) | CCipher (d : list Z) | CFinish (extract : bool).
(** specification: what may come next *)
Inductive phase := PHeader | PData | PFull | PDone.
Definition whole (d : list Z) : bool := Nat.eqb (length d mod 16) 0.
Definition phase_step (p : phase) (c : gcall) : bool * phase :=
  match p, c with
  | PHeader, CHeader d => (true, if whole d then PHeader else PData)
  | (PHeader | PData), (CPlain d | CCipher d) => (true, if whole d then PData else PFull)
  | _, CFinish _ => (true, PDone)
  | _, _ => (false, p)
  end.
Fixpoint phase_run (p : phase) (cs : list gcall) : list bool := match cs with [] => [] | c :: t => let (b, p') := phase_step p c in b :: phase_run p' t end.
(** the object: a call's boolean, or true for finish *)
Definition do_call (bd : build) (g : gcm) (c : gcall) : option (bool * gcm) :=
  match c with
  | CHeader d => add_header bd g d (length d)
  | CPlain d => r <- add_plain bd g (length d) d (length d) ;; Some (fst (fst r), snd r)
  | CCipher d => r <- add_cipher bd g (length d) d (length d) ;; Some (fst (fst r), snd r)
  | CFinish e => r <- gcm_finish bd g e ;; Some (true, snd r)
  end.
Fixpoint do_calls (bd : build) (g : gcm) (cs : list gcall) : option (list bool) :=
  match cs with [] => Some [] | c :: t => r <- do_call bd g c ;; bs <- do_calls bd (snd r) t ;; Some (fst r :: bs) end.
Definition phase_of (s : nat) : phase := match s with 0%nat => PHeader | 1%nat => PData | 2%nat => PFull | _ => PDone end.
Lemma do_call_phase bd g c b g' : (g_status g <= 3)%nat -> do_call bd g c = Some (b, g') -> phase_step (phase_of (g_status g)) c = (b, phase_of (g_status g')) /\ (g_status g' <= 3)%nat.
Proof.
  intros Hs. assert (S4 : g_status g = 0%nat \/ g_status g = 1%nat \/ g_status g = 2%nat \/ g_status g = 3%nat) by lia.
  assert (HD : forall enc d b g', (r <- add_data bd enc g (length d) d (length d) ;; Some (fst (fst r), snd r)) = Some (b, g') ->
    (match phase_of (g_status g) with PHeader | PData => (true, if whole d then PData else PFull) | p => (false, p) end) = (b, phase_of (g_status g')) /\ (g_status g' <= 3)%nat).
  { intros enc d b0 g0. unfold add_data, whole. generalize (length d mod 16)%nat. intros q. destruct S4 as [-> |[-> |[-> | ->]]]; cbn [Nat.eqb ACC_HEADER ACC_CIPHER negb phase_of bind fst snd]; rewrite ?take_all; cbn [bind]; rewrite ?Nat.ltb_irrefl.
    1,2: destruct (crypt_loop _ _ _ _ _ _ _ _) as [[[[o st] l] a]|]; cbn [bind fst snd]; [|discriminate]; destruct (Nat.eqb q 0); let EE := fresh in intros EE; inversion EE; subst; cbn [g_status]; (split; [reflexivity|unfold NOT_MORE, ACC_CIPHER; lia]).
    all: let EE := fresh in intros EE; inversion EE; subst; cbn; (split; [reflexivity|lia]). }
  destruct c as [d|d|d|e]; cbn [do_call phase_step].
  - unfold add_header, phase_step, whole. generalize (length d mod 16)%nat. intros q. destruct S4 as [S |[S |[S | S]]]; rewrite S; cbn [Nat.eqb ACC_HEADER ACC_CIPHER negb phase_of bind fst snd].
    + rewrite take_all. cbn [bind]. destruct (hash_loop _ _ _ _ _ _) as [[st l]|]; cbn [bind fst snd]; [|discriminate]. destruct (Nat.eqb q 0); let EE := fresh in intros EE; inversion EE; subst; cbn [g_status]; (split; [reflexivity|unfold NOT_MORE, ACC_CIPHER; lia]).
    + let EE := fresh in intros EE; inversion EE; subst. rewrite S. cbn. split; [reflexivity|lia].
    + let EE := fresh in intros EE; inversion EE; subst. rewrite S. cbn. split; [reflexivity|lia].
    + let EE := fresh in intros EE; inversion EE; subst. rewrite S. cbn. split; [reflexivity|lia].
  - intros E. unfold add_plain in E. destruct (HD true d b g' E) as [Q1 Q2]. split; [|exact Q2]. rewrite <- Q1. destruct (phase_of (g_status g)); reflexivity.
  - intros E. unfold add_cipher in E. destruct (HD false d b g' E) as [Q1 Q2]. split; [|exact Q2]. rewrite <- Q1. destruct (phase_of (g_status g)); reflexivity.
  - unfold gcm_finish. destruct (gwrap bd g) as [g1|]; cbn [bind]; [|discriminate]. destruct e; cbn [bind snd]; let EE := fresh in intros EE; inversion EE; subst; cbn [g_status FINISHED phase_of]; destruct (phase_of (g_status g)); (split; [reflexivity|unfold FINISHED; lia]).
Qed.
(** whatever calls are made after init, each is accepted exactly when the specification says so (both builds) *)
Theorem C29_order : forall bd g nk key niv iv g0 cs bs, gcm_init bd g nk key niv iv = Some g0 -> do_calls bd g0 cs = Some bs -> bs = phase_run PHeader cs.
Proof.
  intros bd g nk key niv iv g0 cs bs E0.
  assert (S0 : g_status g0 = 0%nat).
  { unfold gcm_init in E0. destruct (aes_init _ _ _ _ _) as [r|]; cbn [bind] in E0; [|discriminate]. destruct (Nat.eqb niv 12).
    - destruct (take_slice iv 12); cbn [bind] in E0; [|discriminate]. inversion E0; reflexivity.
    - destruct (ghash _ _ _ _); cbn [bind] in E0; [|discriminate]. destruct (gwrap _ _); cbn [bind] in E0; [|discriminate]. inversion E0; reflexivity. }
  change PHeader with (phase_of 0). rewrite <- S0. assert (L0 : (g_status g0 <= 3)%nat) by lia. clear E0 S0. revert g0 L0 bs.
  induction cs as [|c cs IH]; intros g0 L0 bs E; cbn [do_calls phase_run] in *; [inversion E; reflexivity|].
  destruct (do_call bd g0 c) as [[b g1]|] eqn:E1; cbn [bind fst snd] in E; [|discriminate]. destruct (do_call_phase bd g0 c b g1 L0 E1) as [Q1 Q2]. rewrite Q1.
  destruct (do_calls bd g1 cs) as [bs1|] eqn:E2; cbn [bind] in E; [|discriminate]. inversion E; subst. f_equal. apply IH; assumption.
Qed.
Print Assumptions C29_order.
(** a refused call changes nothing *)
Theorem C29_refused_unchanged : forall bd g c g', do_call bd g c = Some (false, g') -> g' = g.
Proof.
  intros bd g c g'. assert (HD : forall enc d, (r <- add_data bd enc g (length d) d (length d) ;; Some (fst (fst r), snd r)) = Some (false, g') -> g' = g).
  { intros enc d. unfold add_data. destruct (Nat.eqb_spec (g_status g) ACC_HEADER) as [E|N]; cbn [negb Nat.eqb ACC_CIPHER].
    - destruct (take_slice _ _) as [dd|]; cbn [bind]; [|discriminate]. destruct (Nat.ltb _ _); [discriminate|]. destruct (crypt_loop _ _ _ _ _ _ _ _) as [[[[o st] l] a]|]; cbn; discriminate.
    - destruct (Nat.eqb (g_status g) ACC_CIPHER); cbn [negb].
      + destruct (take_slice _ _) as [dd|]; cbn [bind]; [|discriminate]. destruct (Nat.ltb _ _); [discriminate|]. destruct (crypt_loop _ _ _ _ _ _ _ _) as [[[[o st] l] a]|]; cbn; discriminate.
      + cbn [bind fst snd]. intros E; inversion E. destruct g; reflexivity. }
  destruct c as [d|d|d|e]; cbn [do_call].
  - unfold add_header. destruct (Nat.eqb _ _); cbn [negb].
    + destruct (take_slice _ _) as [dd|]; cbn [bind]; [|discriminate]. destruct (hash_loop _ _ _ _ _ _) as [[st l]|]; cbn; discriminate.
    + intros E; inversion E; reflexivity.
  - apply HD.
  - apply HD.
  - unfold gcm_finish. destruct (gwrap bd g); cbn [bind]; [|discriminate]. destruct e; cbn; discriminate.
Qed.
Print Assumptions C29_refused_unchanged.
(** cutting at a multiple of 16: same outputs and same object afterwards (any object, both builds) *)
Theorem C29_chunks : forall bd enc g a b n, (length a mod 16 = 0)%nat ->
  (g_status g = ACC_HEADER -> add_header bd g (a ++ b) (length (a ++ b)) = (r <- add_header bd g a (length a) ;; add_header bd (snd r) b (length b)))
  /\ (g_status g = ACC_HEADER \/ g_status g = ACC_CIPHER -> (length (a ++ b) <= n)%nat ->
      add_data bd enc g n (a ++ b) (length (a ++ b)) =
      (r <- add_data bd enc g (length a) a (length a) ;; let '(_, o1, g1) := r in r <- add_data bd enc g1 (length b) b (length b) ;; let '(ok, o2, g2) := r in Some (ok, o1 ++ o2, g2))).
Proof. intros bd enc g a b n H. split; [apply add_header_app; exact H|apply add_data_app; exact H]. Qed.
Print Assumptions C29_chunks.
Example C29_ex : (g0 <- gcm_init Release gcm_new 16 (repeat 7 16) 12 (repeat 1 12) ;;
  do_calls Release g0 [CHeader (repeat 1 16); CHeader (repeat 2 3); CHeader (repeat 3 16); CPlain (repeat 4 16); CCipher (repeat 4 5); CPlain [9]; CFinish true; CPlain []]) = Some [true; true; false; true; true; false; true; false].
Proof. vm_compute. reflexivity. Qed.

(** ** hex2bytes: inverse of hexadecimal printing; a bad low digit zeroes the whole byte, a bad high digit only its half *)
Definition hexchar (d : Z) : Z := if d <? 10 then 48 + d else 87 + d.
Definition to_hex (l : list Z) : list Z := flat_map (fun b => [hexchar (b / 16); hexchar (b mod 16)]) l.
Theorem C29_hex2bytes : forall l, Forall byte_ok l -> hex2bytes (to_hex l) = l.
Proof.
  intros l H. induction H as [|b l Hb H IH]; [reflexivity|]. cbn [to_hex flat_map app hex2bytes]. fold (to_hex l). rewrite IH. f_equal.
  revert Hb. unfold byte_ok. intros Hb. apply Z.eqb_eq. apply (byte_sweep (fun b => (let v := match hexdig (hexchar (b / 16)) with Some v => v | None => 0 end in match hexdig (hexchar (b mod 16)) with Some d => 16 * v + d | None => 0 end) =? b)); [vm_compute; reflexivity|exact Hb].
Qed.
Print Assumptions C29_hex2bytes.
