(** OAEP and PKCS#1 v1.5 encodings. *)
From Verif Require Import Base.Word Base.Arr Model.Sha2 Model.Rand Model.Ecdh Model.Rsa Spec.Bytes Spec.Sha2Spec Spec.KdfSpec Spec.RsaSpec
  Proof.Sha2Block Proof.Sha2Stream Proof.Sha2Mac Proof.GcmBase Proof.RandProof Proof.EcdhSym Proof.EcdhPbkdf Proof.EcdhCbc.

Lemma firstn_n {A} n (a b : list A) : length a = n -> firstn n (a ++ b) = a. Proof. intros <-. apply firstn_app_exact. Qed.
Lemma skipn_n {A} n (a b : list A) : length a = n -> skipn n (a ++ b) = b. Proof. intros <-. apply skipn_app_exact. Qed.
Lemma firstn_skipn_comm' {A} m : forall n (l : list A), firstn m (skipn n l) = skipn n (firstn (n + m) l).
Proof. induction n as [|n IH]; intros l; [reflexivity|]. destruct l as [|x l]; [destruct m; reflexivity|]. cbn [skipn Nat.add firstn]. apply IH. Qed.
Lemma first_nonzero_some : forall l k i, first_nonzero l k = Some i -> exists j, i = (k + j)%nat /\ (j < length l)%nat /\ l = repeat 0 j ++ at_ l j :: skipn (j + 1) l /\ at_ l j <> 0.
Proof.
  induction l as [|x l IH]; intros k i H; [discriminate|]. cbn [first_nonzero] in H. destruct (Z.eqb_spec x 0) as [->|N].
  - destruct (IH _ _ H) as [j [E [L [SP N]]]]. exists (S j). split; [lia|]. split; [cbn [length]; lia|]. split; [|exact N]. cbn [repeat app Nat.add skipn at_ nth]. f_equal. exact SP.
  - inversion H; subst. exists 0%nat. split; [lia|]. split; [cbn; lia|]. split; [reflexivity|exact N].
Qed.
Lemma first_nonzero_none : forall l k, first_nonzero l k = None -> l = repeat 0 (length l).
Proof. induction l as [|x l IH]; intros k H; [reflexivity|]. cbn [first_nonzero] in H. destruct (Z.eqb_spec x 0) as [->|N]; [|discriminate]. cbn [length repeat]. f_equal. exact (IH _ H). Qed.
Lemma first_nonzero_at n y t : y <> 0 -> forall k, first_nonzero (repeat 0 n ++ y :: t) k = Some (k + n)%nat.
Proof. intros N. induction n as [|n IH]; intros k; cbn [repeat app first_nonzero]; [destruct (Z.eqb_spec y 0); [contradiction|f_equal; lia]|]. change (0 =? 0) with true. rewrite IH. f_equal. lia. Qed.

Lemma getbytes_sane bd : forall n r, sane r -> exists l r', getbytes bd n r = Some (l, r') /\ bytes l /\ length l = n /\ sane r'.
Proof.
  induction n as [|n IH]; intros r H; [exists [], r; split; [reflexivity|]; split; [constructor|]; split; [reflexivity|exact H]|]. cbn [getbytes].
  destruct (getbyte_sane bd r H) as [x [r1 [E [Bx S1]]]]. rewrite E. cbn [bind snd fst]. destruct (IH r1 S1) as [l [r2 [E2 [Bl [Ll S2]]]]]. rewrite E2. cbn [bind snd fst].
  exists (x :: l), r2. split; [reflexivity|]. split; [constructor; assumption|]. split; [cbn [length]; lia|exact S2].
Qed.
Section Enc.
Variables (sha : nat) (P : sha_par) (bd : build).
Hypothesis HT : In (sha, P) sha_types.
Definition opt_ctr (n : Z) : list Z := if 0 <=? n then i2osp n 4 else [].
Lemma rhash_ok a n w : bytes (opt_bytes a) -> room P bd (length (opt_bytes a) + 4) -> (sha <= length w)%nat ->
  rhash bd sha a n w = Some (SHA2 P (opt_bytes a ++ opt_ctr n) ++ skipn sha w).
Proof.
  intros Ha F L. destruct (hash_C sha P HT) as [C [EC M]]. unfold rhash. rewrite EC. unfold room in F.
  assert (S1 : exists s, match a with Some x => process_array C bd (h_new C) x | None => Some (h_new C) end = Some s /\ inv P (opt_bytes a) s).
  { destruct a as [x|]; [|exists (h_new C); split; [reflexivity|apply (new_ok C P M)]]. cbn [opt_bytes] in *.
    destruct (process_array_ok C P M bd x [] (h_new C) (new_ok C P M) Ha) as [s [E I]]; [eapply fits_le; [|exact F]; cbn [length]; lia|]. exists s. split; [exact E|exact I]. }
  destruct S1 as [s [E I]]. rewrite E. cbn [bind].
  assert (S2 : exists s2, (if 0 <=? n then process_num C bd s (wrap 32 n) else Some s) = Some s2 /\ inv P (opt_bytes a ++ opt_ctr n) s2).
  { unfold opt_ctr. destruct (0 <=? n); [|exists s; split; [reflexivity|]; rewrite app_nil_r; exact I].
    destruct (process_num_ok C P M bd (wrap 32 n) _ s I) as [s2 [E2 I2]]; [eapply fits_le; [|exact F]; lia|].
    exists s2. split; [exact E2|]. erewrite i2osp_cong; [exact I2|]. change (256 ^ Z.of_nat 4) with (2 ^ 32). symmetry. unfold wrap. rewrite Zminus_mod, Zmod_mod, <- Zminus_mod. f_equal. lia. }
  destruct S2 as [s2 [E2 I2]]. rewrite E2. cbn [bind].
  destruct (hash_ok C P M bd _ s2 I2) as [s4 [E4 _]].
  { eapply fits_le; [|exact F]. rewrite app_length. assert ((length (opt_ctr n) <= 4)%nat) by (unfold opt_ctr; destruct (0 <=? n); [rewrite i2osp_length; lia|cbn; lia]). lia. }
  rewrite E4. cbn [bind fst]. rewrite firstn_all2 by (rewrite (SHA_len sha P HT); lia). rewrite put0 by (rewrite (SHA_len sha P HT); lia). rewrite (SHA_len sha P HT). reflexivity.
Qed.

Lemma mgf_loop_ok z olen : bytes z -> room P bd (length z + 4) ->
  forall cs t k, (olen <= length k)%nat -> (olen <= sha * t + sha * length cs)%nat -> (cs <> [] -> sha * t + sha * (length cs - 1) < olen)%nat -> (sha * t <= olen \/ cs = [])%nat ->
  mgf_loop bd sha z olen cs (Nat.min (sha * t) olen) k =
  Some (firstn (Nat.min (sha * t) olen) k ++ firstn (olen - sha * t) (flat_map (fun c => SHA2 P (z ++ i2osp (Z.of_nat c) 4)) cs) ++ skipn olen k).
Proof.
  intros Hz F. pose proof (sha_rng sha P HT) as R. induction cs as [|c cs IH]; intros t k Lk L1 L2 L3.
  - cbn [mgf_loop flat_map length] in *. rewrite Nat.mul_0_r in L1. rewrite Nat.min_r by lia. rewrite firstn_nil. rewrite app_nil_l, firstn_skipn. reflexivity.
  - cbn [mgf_loop length] in *. specialize (L2 ltac:(discriminate)). destruct L3 as [L3|]; [|discriminate]. rewrite !Nat.min_l by lia.
    rewrite rhash_ok; [|exact Hz|exact F|rewrite repeat_length; lia]. cbn [bind]. cbn [opt_bytes]. unfold opt_ctr. destruct (Z.leb_spec 0 (Z.of_nat c)); [|lia].
    set (h := SHA2 P _). assert (Lh : length h = sha) by apply (SHA_len sha P HT).
    cbn [flat_map]. fold h.
    assert (E : (if (olen <? sha * t + sha)%nat then (olen mod sha)%nat else sha) = Nat.min sha (olen - sha * t)).
    { destruct (Nat.ltb_spec olen (sha * t + sha)); [|rewrite Nat.min_l by lia; reflexivity]. rewrite Nat.min_r by lia.
      symmetry. apply (Nat.mod_unique olen sha t); lia. }
    rewrite E. set (n := Nat.min sha (olen - sha * t)). destruct (Nat.ltb_spec 64 n); [unfold n in *; lia|].
    rewrite (firstn_sha sha) by (try assumption; unfold n; lia).
    assert (Ln : length (firstn n h) = n) by (rewrite firstn_length; unfold n; lia).
    rewrite put_ok by (rewrite Ln; unfold n; lia). cbn [bind]. rewrite Ln. set (k2 := firstn (sha * t) k ++ firstn n h ++ skipn (sha * t + n) k).
    replace (sha * t + n)%nat with (Nat.min (sha * S t) olen) by (unfold n; lia).
    assert (Lk2 : length k2 = length k) by (unfold k2; rewrite !app_length, Ln, firstn_length, skipn_length; unfold n; lia).
    rewrite IH; [|rewrite Lk2; exact Lk|rewrite Nat.mul_succ_r; cbn [length] in L1; lia| |].
    2:{ intros Q. destruct cs as [|c' cs]; [contradiction|]. cbn [length] in *. rewrite Nat.mul_succ_r. lia. }
    2:{ destruct cs as [|c' cs]; [right; reflexivity|left]. cbn [length] in L2. lia. }
    f_equal.
    assert (A : firstn (Nat.min (sha * S t) olen) k2 = firstn (sha * t) k ++ firstn n h).
    { unfold k2. rewrite app_assoc. set (y := firstn (sha * t) k ++ firstn n h). replace (Nat.min (sha * S t) olen) with (length y); [apply firstn_app_exact|].
      unfold y. rewrite app_length, Ln, firstn_length. unfold n. lia. }
    assert (B : skipn olen k2 = skipn olen k).
    { unfold k2. rewrite app_assoc, skipn_app. rewrite app_length, Ln, (firstn_length_le k) by lia. rewrite skipn_all2 by (rewrite app_length, Ln, firstn_length; unfold n; lia).
      cbn [app]. rewrite skipn_skipn'. f_equal. unfold n. lia. }
    rewrite A, B, <- app_assoc. f_equal. rewrite firstn_app, Lh, <- app_assoc. f_equal.
    + unfold n. destruct (Nat.le_gt_cases sha (olen - sha * t)); [rewrite Nat.min_l by lia; rewrite !firstn_all2 by lia; reflexivity|rewrite Nat.min_r by lia; reflexivity].
    + f_equal. f_equal. lia.
Qed.
Lemma skipn_repeat0 n m : skipn n (repeat 0 m) = repeat 0 (m - n).
Proof. destruct (Nat.le_gt_cases n m); [|rewrite skipn_all2 by (rewrite repeat_length; lia); replace (m - n)%nat with 0%nat by lia; reflexivity].
  replace m with (n + (m - n))%nat at 1 by lia. rewrite repeat_app, skipn_app, repeat_length, Nat.sub_diag, skipn_all2 by (rewrite repeat_length; lia). reflexivity. Qed.
Lemma mgf1_ok z olen k : bytes z -> room P bd (length z + 4) -> (olen <= length k)%nat ->
  mgf1 bd sha z olen k = Some (MGF1 P z olen ++ repeat 0 (length k - olen)).
Proof.
  intros Hz F L. pose proof (sha_rng sha P HT) as R. unfold mgf1, MGF1. destruct (Nat.eqb_spec sha 0); [lia|]. pose proof (blocks_bounds sha P HT olen) as [B1 B2]. rewrite (cthreshold_ok sha P HT), (sha_out sha P HT).
  pose proof (mgf_loop_ok z olen Hz F (seq 0 (blocks_for sha olen)) 0 (repeat 0 (length k))) as Q. rewrite repeat_length, seq_length, !Nat.mul_0_r in Q. cbn [Nat.min firstn app Nat.add] in Q. rewrite Nat.sub_0_r in Q.
  rewrite Q; [rewrite skipn_repeat0; reflexivity|exact L|exact B1| |left; lia]. intros N. apply B2. destruct (blocks_for sha olen); [contradiction|lia].
Qed.
Lemma MGF1_length z n : length (MGF1 P z n) = n.
Proof.
  unfold MGF1. rewrite firstn_length. pose proof (blocks_bounds sha P HT n) as [B1 _]. rewrite (sha_out sha P HT).
  assert (LG : forall m i, length (flat_map (fun c => SHA2 P (z ++ i2osp (Z.of_nat c) 4)) (seq i m)) = (m * sha)%nat).
  { induction m as [|m IH]; intros i; [reflexivity|]. cbn [seq flat_map]. rewrite app_length, IH, (SHA_len sha P HT). reflexivity. }
  rewrite LG. lia.
Qed.
Lemma MGF1_bytes z n : bytes (MGF1 P z n).
Proof.
  unfold MGF1. apply Forall_fs. apply Forall_forall. intros x Hx. apply in_flat_map in Hx. destruct Hx as [c [_ Hx]].
  exact (proj1 (Forall_forall _ _) (SHA2_bytes P (z ++ i2osp (Z.of_nat c) 4)) x Hx).
Qed.

(** PKCS#1 v1.5 *)
Definition oid_of : Z := if Nat.eqb sha 32 then 1 else if Nat.eqb sha 48 then 2 else 3.
Lemma sha_id_ok : sha_id sha = DER_prefix oid_of (Z.of_nat (outlen P)).
Proof. unfold oid_of. destruct HT as [E|[E|[E|[]]]]; inversion E; subst; reflexivity. Qed.
Lemma pkcs15_ok flen m w : bytes m -> room P bd (length m + 4) -> (19 + sha + 10 <= flen <= length w)%nat ->
  pkcs15 bd flen sha m w = Some (true, EMSA_PKCS1 P oid_of flen m ++ repeat 0 (length w - flen)).
Proof.
  intros Hm F L. pose proof (sha_rng sha P HT) as R. unfold pkcs15. destruct (Nat.ltb_spec flen (19 + sha + 10)); [lia|].
  rewrite rhash_ok; [|exact Hm|exact F|rewrite repeat_length; lia]. cbn [bind]. destruct (Nat.ltb_spec 64 sha); [lia|].
  cbn [opt_bytes]. unfold opt_ctr. change (0 <=? -1) with false. cbv iota. rewrite app_nil_r.
  rewrite (firstn_sha sha) by (try apply (SHA_len sha P HT); lia). rewrite firstn_all2 by (rewrite (SHA_len sha P HT); lia).
  set (e := [0; 1] ++ _). 
  assert (EE : e = EMSA_PKCS1 P oid_of flen m).
  { unfold e, EMSA_PKCS1, digest_info. rewrite sha_id_ok. rewrite app_length, (SHA_len sha P HT). replace (length (DER_prefix oid_of (Z.of_nat (outlen P)))) with 19%nat by reflexivity.
    replace (flen - 19 - sha - 3)%nat with (flen - (19 + sha) - 3)%nat by lia. reflexivity. }
  assert (LE : length e = flen).
  { unfold e. rewrite !app_length, repeat_length, (SHA_len sha P HT), sha_id_ok. replace (length (DER_prefix oid_of (Z.of_nat (outlen P)))) with 19%nat by reflexivity. cbn [length]. lia. }
  rewrite put0 by (rewrite repeat_length, LE; lia). cbn [bind]. rewrite LE, skipn_repeat0, EE. reflexivity.
Qed.

(** OAEP; the code masks with the seed padded with zeros to 64 bytes *)
Definition coded_mask (s : list Z) (n : nat) : list Z := MGF1 P (s ++ repeat 0 (64 - length s)) n.
Variable rfs : nat.
Hypothesis RF : (2 * sha + 2 <= rfs)%nat.
Hypothesis FR : room P bd (rfs + 70).
Lemma DB_length lab m : (length m <= OAEP_capacity P rfs)%nat -> length (OAEP_DB P rfs lab m) = (rfs - sha - 1)%nat.
Proof.
  unfold OAEP_capacity, OAEP_DB. rewrite (sha_out sha P HT). intros H. rewrite !app_length, (SHA_len sha P HT), repeat_length. cbn [length]. lia.
Qed.
Lemma DB_bytes lab m : bytes m -> bytes (OAEP_DB P rfs lab m).
Proof. intros H. apply Forall_app. split; [apply SHA2_bytes|]. apply Forall_app. split; [apply zeros_bytes|]. apply Forall_app. split; [|exact H]. apply Forall_cons; [unfold is_byte; lia|constructor]. Qed.
Lemma xorl_byt a b : bytes a -> bytes b -> bytes (xorl a b).
Proof. apply xorl_bytes. Qed.
Lemma oaep_encode_ok m rng p f sd rng' : bytes m -> bytes (opt_bytes p) -> room P bd (length (opt_bytes p) + 4) -> (length m <= OAEP_capacity P rfs)%nat -> (rfs <= length f)%nat ->
  getbytes bd sha rng = Some (sd, rng') -> bytes sd -> length sd = sha ->
  oaep_encode bd rfs sha m rng p f = Some (true, OAEP coded_mask P rfs (opt_bytes p) sd m ++ repeat 0 (length f - rfs), rng').
Proof.
  intros Hm Hp F C L G Bs Ls. pose proof (sha_rng sha P HT) as R. pose proof (DB_length (opt_bytes p) m C) as LD. pose proof (DB_bytes (opt_bytes p) m Hm) as BD.
  unfold OAEP_capacity in C. rewrite (sha_out sha P HT) in C. unfold oaep_encode.
  destruct (Nat.ltb_spec (rfs - 1) (sha + sha + 1)); [lia|]. destruct (Nat.ltb_spec (rfs - 1 - sha - sha - 1) (length m)); [lia|].
  rewrite rhash_ok; [|exact Hp|exact F|lia]. cbn [bind]. unfold opt_ctr. change (0 <=? -1) with false. cbv iota. rewrite app_nil_r.
  set (h := SHA2 P (opt_bytes p)). assert (Lh : length h = sha) by apply (SHA_len sha P HT).
  set (tl := repeat 0 (rfs - 1 - length m - sha - sha - 1) ++ [1] ++ m).
  assert (Lt : length tl = (rfs - 1 - sha - sha)%nat) by (unfold tl; rewrite !app_length, repeat_length; cbn [length]; lia).
  rewrite put_ok by (rewrite app_length, skipn_length, Lh, Lt; lia). cbn [bind]. rewrite (firstn_n sha h) by exact Lh.
  destruct (Nat.ltb_spec 64 sha); [lia|]. rewrite G. cbn [bind].
  assert (ED : h ++ tl = OAEP_DB P rfs (opt_bytes p) m).
  { unfold OAEP_DB, h, tl. rewrite (sha_out sha P HT). do 3 f_equal. clear. lia. }
  rewrite mgf1_ok; [|apply Forall_app; split; [exact Bs|apply zeros_bytes]|eapply room_le; [|exact FR]; rewrite app_length, repeat_length; lia|rewrite repeat_length; lia].
  cbn [bind]. set (M := MGF1 P (sd ++ repeat 0 (64 - sha)) (rfs - 1 - sha)). assert (LM : length M = (rfs - 1 - sha)%nat) by apply MGF1_length.
  assert (F1 : forall r : list Z, firstn (rfs - 1 - sha) (M ++ r) = M) by (intros r; rewrite <- LM; apply firstn_app_exact).
  rewrite F1. set (D := OAEP_DB P rfs (opt_bytes p) m) in *.
  set (f2 := h ++ tl ++ _). assert (F2 : firstn (rfs - 1 - sha) f2 = D).
  { unfold f2. rewrite app_assoc, ED. replace (rfs - 1 - sha)%nat with (length D) by lia. apply firstn_app_exact. }
  assert (L2 : length f2 = length f) by (unfold f2; rewrite !app_length, Lh, Lt, !skipn_length, app_length, Lh, skipn_length; lia).
  rewrite F2. set (X := xorl M D). assert (LX : length X = (rfs - 1 - sha)%nat) by (unfold X; rewrite xorl_length; lia).
  assert (BX : bytes X) by (apply xorl_byt; [apply MGF1_bytes|exact BD]).
  rewrite mgf1_ok; [|exact BX|eapply room_le; [|exact FR]; lia|rewrite L2; lia]. cbn [bind]. rewrite L2.
  set (N := MGF1 P X sha). assert (LN : length N = sha) by apply MGF1_length.
  rewrite (firstn_n sha N), (skipn_n sha N) by exact LN. set (Y := xorl N sd). assert (LY : length Y = sha) by (unfold Y; rewrite xorl_length; lia).
  rewrite put_ok by (rewrite app_length, LY, repeat_length, LX; lia). cbn [bind].
  rewrite (firstn_n sha Y) by exact LY. rewrite skipn_app, LY. rewrite (skipn_all2 Y) by lia. rewrite skipn_repeat0. cbn [app].
  set (f3 := Y ++ X ++ _). assert (L3 : length f3 = length f) by (unfold f3; rewrite !app_length, repeat_length, LX, LY; lia).
  rewrite L3. destruct (Nat.ltb_spec (length f) rfs); [lia|].
  assert (E3 : firstn (rfs - 1) f3 = Y ++ X).
  { unfold f3. rewrite app_assoc. replace (rfs - 1)%nat with (length (Y ++ X)) by (rewrite app_length; lia). apply firstn_app_exact. }
  assert (E4 : skipn rfs f3 = repeat 0 (length f - rfs)).
  { unfold f3. rewrite app_assoc, skipn_app, app_length, LX, LY. rewrite skipn_all2 by (rewrite app_length; lia). cbn [app]. rewrite skipn_repeat0. f_equal. clear - L RF R. lia. }
  rewrite E3, E4. unfold OAEP. rewrite (sha_out sha P HT). fold D. unfold coded_mask. rewrite Ls.
  replace (rfs - sha - 1)%nat with (rfs - 1 - sha)%nat by lia. fold M. rewrite (xorl_comm D M). fold X. fold N. rewrite (xorl_comm sd N). fold Y.
  reflexivity.
Qed.
Lemma oaep_encode_long m rng p f : (OAEP_capacity P rfs < length m)%nat -> oaep_encode bd rfs sha m rng p f = Some (false, f, rng).
Proof.
  unfold OAEP_capacity. rewrite (sha_out sha P HT). intros H. unfold oaep_encode.
  destruct (Nat.ltb_spec (rfs - 1) (sha + sha + 1)); [lia|]. destruct (Nat.ltb_spec (rfs - 1 - sha - sha - 1) (length m)); [reflexivity|lia].
Qed.

(** what decoding recovers *)
Definition dseed (em : list Z) : list Z := xorl (MGF1 P (skipn (sha + 1) em) sha) (firstn sha (skipn 1 em)).
Definition ddb (em : list Z) : list Z := xorl (skipn (sha + 1) em) (coded_mask (dseed em) (rfs - 1 - sha)).
Lemma encodes_iff lab em m : length em = rfs -> bytes em -> (length m <= OAEP_capacity P rfs)%nat ->
  (OAEP_encodes coded_mask P rfs lab em m <-> at_ em 0 = 0 /\ ddb em = OAEP_DB P rfs lab m).
Proof.
  intros LE BE C. pose proof (sha_rng sha P HT) as R. pose proof (DB_length lab m C) as LD. set (D := OAEP_DB P rfs lab m) in *.
  assert (Lms : length (firstn sha (skipn 1 em)) = sha) by (rewrite firstn_length, skipn_length; lia).
  assert (Lmd : length (skipn (sha + 1) em) = (rfs - 1 - sha)%nat) by (rewrite skipn_length; lia).
  assert (Lds : length (dseed em) = sha) by (unfold dseed; rewrite xorl_length, MGF1_length; lia).
  assert (SP : skipn 1 em = firstn sha (skipn 1 em) ++ skipn (sha + 1) em).
  { rewrite <- (firstn_skipn sha (skipn 1 em)) at 1. rewrite skipn_skipn'. do 2 f_equal. lia. }
  split.
  - intros [_ [s [Bs [Ls E]]]]. rewrite (sha_out sha P HT) in Ls.
    set (X := xorl D (coded_mask s (rfs - sha - 1))). assert (LX : length X = (rfs - 1 - sha)%nat) by (unfold X, coded_mask; rewrite xorl_length, MGF1_length; lia).
    assert (EE : em = 0 :: xorl s (MGF1 P X sha) ++ X) by (rewrite E; unfold OAEP; rewrite (sha_out sha P HT); reflexivity).
    set (Y := xorl s (MGF1 P X sha)) in *. assert (LY : length Y = sha) by (unfold Y; rewrite xorl_length, MGF1_length; lia).
    assert (S1 : skipn 1 em = Y ++ X) by (rewrite EE; reflexivity).
    assert (S2 : skipn (sha + 1) em = X) by (replace (sha + 1)%nat with (1 + sha)%nat by lia; rewrite <- skipn_skipn', S1, <- LY; apply skipn_app_exact).
    assert (DS : dseed em = s). { unfold dseed. rewrite S2, S1, (firstn_n sha Y X LY). unfold Y. rewrite xorl_comm, xorl_invol by (rewrite MGF1_length; lia). reflexivity. }
    split; [rewrite EE; reflexivity|]. unfold ddb. rewrite DS, S2. unfold X. replace (rfs - sha - 1)%nat with (rfs - 1 - sha)%nat by lia. apply xorl_invol. unfold coded_mask. rewrite MGF1_length. lia.
  - intros [A0 DD]. split; [exact C|]. exists (dseed em). rewrite (sha_out sha P HT). split; [|split; [exact Lds|]].
    + apply xorl_byt; [apply MGF1_bytes|]. apply (proj1 (Forall_fs _ _ _ (proj2 (Forall_fs _ _ _ BE)))).
    + unfold OAEP. rewrite (sha_out sha P HT). fold D. rewrite <- DD. unfold ddb. replace (rfs - sha - 1)%nat with (rfs - 1 - sha)%nat by lia.
      rewrite xorl_invol by (unfold coded_mask; rewrite MGF1_length; lia). unfold dseed at 1. rewrite (xorl_comm (MGF1 _ _ _)), xorl_invol by (rewrite MGF1_length; lia). rewrite <- SP.
      destruct em as [|x em]; [cbn [length] in LE; lia|]. unfold at_ in A0. cbn [nth] in A0. subst x. reflexivity.
Qed.
Lemma db_form lab d m : length d = (rfs - 1 - sha)%nat -> (length m <= OAEP_capacity P rfs)%nat ->
  (d = OAEP_DB P rfs lab m <-> firstn sha d = SHA2 P lab /\ exists n, skipn sha d = repeat 0 n ++ 1 :: m).
Proof.
  intros L C. unfold OAEP_capacity in C. rewrite (sha_out sha P HT) in C. pose proof (SHA_len sha P HT lab) as LH. unfold OAEP_DB. rewrite (sha_out sha P HT). split.
  - intros ->. split; [apply firstn_n; exact LH|]. eexists. apply skipn_n. exact LH.
  - intros [E [n SP]]. rewrite <- (firstn_skipn sha d), E, SP. f_equal. f_equal. f_equal.
    assert (LS : length (skipn sha d) = (n + 1 + length m)%nat) by (rewrite SP, app_length, repeat_length; cbn [length]; lia). rewrite skipn_length in LS. lia.
Qed.
Lemma oaep_decode_ok p f : bytes f -> (rfs <= length f)%nat -> bytes (opt_bytes p) -> room P bd (length (opt_bytes p) + 4) ->
  exists n f', oaep_decode bd rfs sha p f = Some (n, f') /\ length f' = length f /\ (n <= OAEP_capacity P rfs)%nat /\
    forall m, m <> [] -> (n = length m /\ firstn n f' = m <-> OAEP_encodes coded_mask P rfs (opt_bytes p) (firstn rfs f) m).
Proof.
  intros BF L Hp F. pose proof (sha_rng sha P HT) as R. unfold oaep_decode. destruct (Nat.ltb_spec (rfs - 1) (sha + sha + 1)); [lia|]. destruct (Nat.ltb_spec (length f) rfs); [lia|].
  rewrite rhash_ok; [|exact Hp|exact F|rewrite repeat_length; lia]. cbn [bind]. unfold opt_ctr. change (0 <=? -1) with false. cbv iota. rewrite app_nil_r.
  set (em := firstn rfs f). assert (LE : length em = rfs) by (unfold em; rewrite firstn_length; lia). assert (BE : bytes em) by apply (proj1 (Forall_fs _ rfs f BF)).
  assert (SM : firstn (rfs - 1 - sha) (skipn (sha + 1) f) = skipn (sha + 1) em).
  { unfold em. rewrite firstn_skipn_comm'. do 2 f_equal. lia. }
  assert (SS : firstn sha (skipn 1 f) = firstn sha (skipn 1 em)).
  { unfold em. rewrite !firstn_skipn_comm', firstn_firstn, Nat.min_l by lia. reflexivity. }
  assert (A0 : at_ f 0 = at_ em 0) by (unfold em, at_; destruct f; [destruct rfs; reflexivity|]; destruct rfs; [lia|reflexivity]).
  rewrite SM, SS, A0. set (mdb := skipn (sha + 1) em). assert (Lm : length mdb = (rfs - 1 - sha)%nat) by (unfold mdb; rewrite skipn_length; lia).
  assert (Bm : bytes mdb) by apply (proj2 (Forall_fs _ (sha + 1) em BE)).
  rewrite mgf1_ok; [|exact Bm|eapply room_le; [|exact FR]; lia|rewrite repeat_length; lia]. cbn [bind]. rewrite repeat_length.
  rewrite (firstn_n sha (MGF1 P mdb sha)), (skipn_n sha (MGF1 P mdb sha)) by apply MGF1_length. change (xorl (MGF1 P mdb sha) (firstn sha (skipn 1 em))) with (dseed em).
  assert (Lds : length (dseed em) = sha) by (unfold dseed; rewrite xorl_length, MGF1_length, firstn_length, skipn_length; lia).
  assert (Bds : bytes (dseed em)) by (apply xorl_byt; [apply MGF1_bytes|]; apply (proj1 (Forall_fs _ _ _ (proj2 (Forall_fs _ _ _ BE))))).
  rewrite mgf1_ok; [|apply Forall_app; split; [exact Bds|apply zeros_bytes]|eapply room_le; [|exact FR]; rewrite app_length, repeat_length; lia|lia]. cbn [bind].
  set (M := MGF1 P (dseed em ++ repeat 0 (64 - sha)) (rfs - 1 - sha)). assert (LM : length M = (rfs - 1 - sha)%nat) by apply MGF1_length.
  assert (F1 : forall r : list Z, firstn (rfs - 1 - sha) (M ++ r) = M) by (intros r; rewrite <- LM; apply firstn_app_exact). rewrite F1.
  assert (ED : xorl mdb M = ddb em) by (unfold ddb, coded_mask; rewrite Lds; reflexivity). rewrite ED. set (d := ddb em).
  assert (Ld : length d = (rfs - 1 - sha)%nat) by (unfold d; rewrite <- ED, xorl_length; lia).
  set (f2 := M ++ repeat 0 (length f - (rfs - 1 - sha))). assert (L2 : length f2 = length f) by (unfold f2; rewrite app_length, repeat_length; lia).
  set (rest := firstn (rfs - 1 - sha - sha) (skipn sha d)).
  assert (RE : rest = skipn sha d) by (unfold rest; apply firstn_all2; rewrite skipn_length; lia).
  assert (LR : length rest = (rfs - 1 - sha - sha)%nat) by (rewrite RE, skipn_length; lia).
  set (lab := opt_bytes p) in *. set (hl := SHA2 P lab). assert (Lh : length hl = sha) by apply (SHA_len sha P HT).
  assert (COMP : forallb (fun i => at_ (hl ++ skipn sha (repeat 0 64)) i =? at_ d i) (seq 0 sha) = true <-> firstn sha d = hl).
  { rewrite forallb_forall. split.
    - intros Q. apply (nth_ext _ _ 0 0); [rewrite firstn_length; lia|]. intros i Hi. rewrite firstn_length in Hi. specialize (Q i ltac:(apply in_seq; lia)). apply Z.eqb_eq in Q. unfold at_ in Q.
      rewrite app_nth1 in Q by lia. rewrite nth_firstn by lia. symmetry. exact Q.
    - intros Q i Hi. apply in_seq in Hi. apply Z.eqb_eq. unfold at_. rewrite app_nth1 by lia. rewrite <- Q, nth_firstn by lia. reflexivity. }
  assert (VALID : forall m, OAEP_encodes coded_mask P rfs lab em m <-> (length m <= OAEP_capacity P rfs)%nat /\ at_ em 0 = 0 /\ firstn sha d = hl /\ exists n, rest = repeat 0 n ++ 1 :: m).
  { intros m. split.
    - intros V. pose proof V as [C _]. split; [exact C|]. apply (encodes_iff lab em m LE BE C) in V. destruct V as [V0 V]. split; [exact V0|]. fold d in V. apply (db_form lab d m Ld C) in V. rewrite RE. exact V.
    - intros [C [V0 V]]. apply (encodes_iff lab em m LE BE C). split; [exact V0|]. fold d. apply (db_form lab d m Ld C). rewrite RE in V. exact V. }
  assert (CAP : OAEP_capacity P rfs = (rfs - 1 - sha - sha - 1)%nat) by (unfold OAEP_capacity; rewrite (sha_out sha P HT); lia).
  destruct (first_nonzero rest 0) as [k|] eqn:FN.
  - apply first_nonzero_some in FN. destruct FN as [j [Ej [Lj [SPL NZ]]]]. cbn [Nat.add] in Ej. subst j. set (t := at_ rest k) in *. set (tl := skipn (k + 1) rest) in *.
    destruct (negb _ || negb (at_ em 0 =? 0) || negb (t =? 1)) eqn:BAD.
    + exists 0%nat, f2. split; [reflexivity|]. split; [exact L2|]. split; [lia|]. intros m NE. split; [intros [Q _]; destruct m; [contradiction|discriminate]|].
      intros V. exfalso. apply VALID in V. destruct V as [C [V0 [V1 [n V2]]]]. apply COMP in V1. rewrite V1, V0 in BAD. change (0 =? 0) with true in BAD. cbn [negb orb] in BAD.
      assert (FN2 : first_nonzero rest 0 = Some (0 + n)%nat) by (rewrite V2; apply first_nonzero_at; lia).
      assert (FN3 : first_nonzero rest 0 = Some (0 + k)%nat) by (rewrite SPL; apply first_nonzero_at; exact NZ).
      assert (n = k) by (rewrite FN2 in FN3; injection FN3; trivial). subst n. unfold t in BAD. rewrite V2 in BAD. unfold at_ in BAD. rewrite app_nth2 in BAD by (rewrite repeat_length; lia). rewrite repeat_length, Nat.sub_diag in BAD. discriminate.
    + apply orb_false_iff in BAD. destruct BAD as [BAD T1]. apply orb_false_iff in BAD. destruct BAD as [BC B0]. apply negb_false_iff in T1, BC, B0. apply Z.eqb_eq in T1, B0. apply COMP in BC.
      assert (Ltl : length tl = (rfs - 1 - sha - sha - k - 1)%nat) by (unfold tl; rewrite skipn_length; lia).
      rewrite put0 by (rewrite L2, Ltl; lia). cbn [bind]. exists (rfs - 1 - sha - sha - k - 1)%nat, (tl ++ skipn (length tl) f2).
      split; [reflexivity|]. split; [rewrite app_length, skipn_length; lia|]. split; [lia|]. intros m NE. rewrite <- Ltl, firstn_app_exact. split.
      * intros [_ <-]. apply VALID. split; [lia|]. split; [exact B0|]. split; [exact BC|]. exists k. rewrite <- T1. exact SPL.
      * intros V. apply VALID in V. destruct V as [C [_ [_ [n V2]]]].
        assert (FN2 : first_nonzero rest 0 = Some (0 + n)%nat) by (rewrite V2; apply first_nonzero_at; lia).
        assert (FN3 : first_nonzero rest 0 = Some (0 + k)%nat) by (rewrite SPL; apply first_nonzero_at; exact NZ).
        assert (n = k) by (rewrite FN2 in FN3; injection FN3; trivial). subst n. rewrite V2 in SPL at 1. apply app_inv_head in SPL. injection SPL as _ Q. split; [f_equal; symmetry; exact Q|symmetry; exact Q].
  - apply first_nonzero_none in FN. exists 0%nat, f2. split; [reflexivity|]. split; [exact L2|]. split; [lia|]. intros m NE. split; [intros [Q _]; destruct m; [contradiction|discriminate]|].
    intros V. exfalso. apply VALID in V. destruct V as [_ [_ [_ [n V2]]]]. assert (H1 : In 1 rest) by (rewrite V2; apply in_or_app; right; left; reflexivity). rewrite FN in H1. apply repeat_spec in H1. discriminate.
Qed.
End Enc.
