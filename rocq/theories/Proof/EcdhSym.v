(** Hash-based parts of the ECDH module. *)
From Verif Require Import Base.Word Base.Arr Model.Sha2 Model.Ecdh Spec.Bytes Spec.Sha2Spec Spec.GcmSpec Spec.KdfSpec Proof.Sha2Block Proof.Sha2Stream Proof.Sha2Mac Proof.GcmBase.

Lemma put_ok w off bs : (off + length bs <= length w)%nat -> put w off bs = Some (firstn off w ++ bs ++ skipn (off + length bs) w).
Proof. intros H. unfold put. destruct (Nat.leb_spec (off + length bs) (length w)); [reflexivity|lia]. Qed.
Lemma put_none w off bs : (length w < off + length bs)%nat -> put w off bs = None.
Proof. intros H. unfold put. destruct (Nat.leb_spec (off + length bs) (length w)); [lia|reflexivity]. Qed.
Lemma put0 w bs : (length bs <= length w)%nat -> put w 0 bs = Some (bs ++ skipn (length bs) w).
Proof. intros H. rewrite put_ok by (cbn; lia). reflexivity. Qed.

Lemma skipn_skipn' {A} (m n : nat) (l : list A) : skipn m (skipn n l) = skipn (n + m) l.
Proof. revert l. induction n as [|n IH]; intros l; [reflexivity|]. destruct l as [|x l]; cbn [skipn Nat.add]; [destruct m; reflexivity|]. apply IH. Qed.
Lemma firstn_app_exact {A} (a b : list A) : firstn (length a) (a ++ b) = a.
Proof. rewrite firstn_app, Nat.sub_diag, firstn_all. apply app_nil_r. Qed.
Lemma skipn_app_exact {A} (a b : list A) : skipn (length a) (a ++ b) = b.
Proof. rewrite skipn_app, Nat.sub_diag, skipn_all. reflexivity. Qed.
Definition ctr_bytes (n : nat) : list Z := match n with O => [] | _ => i2osp (Z.of_nat n) 4 end.
Definition opt_bytes (b : option (list Z)) : list Z := match b with Some x => x | None => [] end.

Section Hash.
Variables (sha : nat) (P : sha_par).
Hypothesis HT : In (sha, P) sha_types.
Definition room (P : sha_par) (bd : build) (n : nat) : Prop := fits P bd (Z.of_nat n + 32 * Z.of_nat (wbytes P)).
Lemma room_le bd a b : (a <= b)%nat -> room P bd b -> room P bd a.
Proof. intros L. unfold room. apply fits_le. lia. Qed.
Lemma hash_C : exists C, hash_for sha = Some C /\ matches C P.
Proof. destruct HT as [E|[E|[E|[]]]]; inversion E; subst; eexists; (split; [reflexivity|]); [apply m256|apply m384|apply m512]. Qed.
Lemma sha_out : outlen P = sha. Proof. destruct HT as [E|[E|[E|[]]]]; inversion E; subst; reflexivity. Qed.
Lemma sha_rng : (32 <= sha <= 64)%nat. Proof. destruct HT as [E|[E|[E|[]]]]; inversion E; subst; lia. Qed.
Lemma SHA_len m : length (SHA2 P m) = sha.
Proof. destruct hash_C as [C [_ M]]. rewrite (SHA2_length C P M). apply sha_out. Qed.
Lemma HM_len k m : length (HMAC P k m) = sha.
Proof. destruct hash_C as [C [_ M]]. rewrite (HMAC_length C P M). apply sha_out. Qed.

Lemma hash_parts_ok bd a n b : bytes a -> bytes (opt_bytes b) -> room P bd (length a + 4 + length (opt_bytes b)) ->
  hash_parts bd sha a (Z.of_nat n) b = Some (SHA2 P (a ++ ctr_bytes n ++ opt_bytes b) ++ repeat 0 (64 - sha)).
Proof.
  intros Ha Hb F. destruct hash_C as [C [EC M]]. unfold hash_parts. rewrite EC. unfold room in F.
  destruct (process_array_ok C P M bd a [] (h_new C) (new_ok C P M) Ha) as [s [E I]]; [eapply fits_le; [|exact F]; cbn [length]; lia|].
  rewrite E. cbn [bind]. rewrite app_nil_l in I.
  assert (S2 : exists s2, (if 0 <? Z.of_nat n then process_num C bd s (wrap 32 (Z.of_nat n)) else Some s) = Some s2 /\ inv P (a ++ ctr_bytes n) s2).
  { destruct n as [|n].
    - exists s. split; [reflexivity|]. cbn [ctr_bytes]. rewrite app_nil_r. exact I.
    - destruct (process_num_ok C P M bd (wrap 32 (Z.of_nat (S n))) a s I) as [s2 [E2 I2]]; [eapply fits_le; [|exact F]; lia|].
      exists s2. split; [exact E2|]. cbn [ctr_bytes]. erewrite i2osp_cong; [exact I2|].
      change (256 ^ Z.of_nat 4) with (2 ^ 32). symmetry. unfold wrap. rewrite Zminus_mod, Zmod_mod, <- Zminus_mod. f_equal. lia. }
  destruct S2 as [s2 [E2 I2]]. rewrite E2. cbn [bind].
  assert (S3 : exists s3, (match b with Some x => process_array C bd s2 x | None => Some s2 end) = Some s3 /\ inv P (a ++ ctr_bytes n ++ opt_bytes b) s3).
  { assert (L : (length (ctr_bytes n) <= 4)%nat) by (destruct n; cbn [ctr_bytes]; [cbn; lia|rewrite i2osp_length; lia]).
    rewrite app_assoc. destruct b as [x|]; cbn [opt_bytes] in *; [|exists s2; split; [reflexivity|]; rewrite app_nil_r; exact I2].
    apply (process_array_ok C P M bd x _ s2 I2 Hb). eapply fits_le; [|exact F]. rewrite app_length. lia. }
  destruct S3 as [s3 [E3 I3]]. rewrite E3. cbn [bind].
  destruct (hash_ok C P M bd _ s3 I3) as [s4 [E4 _]].
  { eapply fits_le; [|exact F]. rewrite !app_length. assert (L : (length (ctr_bytes n) <= 4)%nat) by (destruct n; cbn [ctr_bytes]; [cbn; lia|rewrite i2osp_length; lia]). lia. }
  rewrite E4. reflexivity.
Qed.
(** what hashit leaves in the slice for each value of pad *)
Definition fit_to (pad : nat) (h : list Z) : list Z := if Nat.eqb pad 0 then h else if (pad <=? length h)%nat then firstn pad h else repeat 0 (pad - length h) ++ h.
Lemma fit_length pad h : length (fit_to pad h) = if Nat.eqb pad 0 then length h else pad.
Proof. unfold fit_to. destruct (Nat.eqb_spec pad 0); [reflexivity|]. destruct (Nat.leb_spec pad (length h)); [rewrite firstn_length; lia|rewrite app_length, repeat_length; lia]. Qed.
Lemma hashit_ok bd a n b pad w : bytes a -> bytes (opt_bytes b) -> room P bd (length a + 4 + length (opt_bytes b)) ->
  hashit bd sha a (Z.of_nat n) b pad w = put w 0 (fit_to pad (SHA2 P (a ++ ctr_bytes n ++ opt_bytes b))).
Proof.
  intros Ha Hb F. unfold hashit. rewrite hash_parts_ok by assumption. cbn [bind]. pose proof sha_rng as R. set (h := SHA2 P _).
  assert (L : length h = sha) by apply SHA_len. unfold fit_to. rewrite L.
  assert (FS : firstn sha (h ++ repeat 0 (64 - sha)) = h) by (rewrite firstn_app, L, Nat.sub_diag; cbn [firstn]; rewrite app_nil_r; apply firstn_all2; lia).
  destruct (Nat.eqb_spec pad 0) as [->|N].
  - destruct (Nat.ltb_spec 64 sha); [lia|]. rewrite FS. reflexivity.
  - destruct (Nat.ltb_spec 64 (Nat.min pad sha)); [lia|]. destruct (Nat.leb_spec pad sha).
    + rewrite firstn_app, L. replace (pad - sha)%nat with 0%nat by lia. cbn [firstn]. rewrite app_nil_r. reflexivity.
    + rewrite FS. reflexivity.
Qed.
Lemma hashit0 bd a n b w : bytes a -> bytes (opt_bytes b) -> room P bd (length a + 4 + length (opt_bytes b)) -> length w = 64%nat ->
  hashit bd sha a (Z.of_nat n) b 0 w = Some (SHA2 P (a ++ ctr_bytes n ++ opt_bytes b) ++ skipn sha w).
Proof.
  intros Ha Hb F L. rewrite hashit_ok by assumption. unfold fit_to. cbn [Nat.eqb]. pose proof sha_rng. rewrite put0 by (rewrite SHA_len; lia).
  rewrite SHA_len. reflexivity.
Qed.

(** KDF loop *)
Lemma firstn_sha (h r : list Z) n : length h = sha -> (n <= sha)%nat -> firstn n (h ++ r) = firstn n h.
Proof. intros L H. rewrite firstn_app, L. replace (n - sha)%nat with 0%nat by lia. cbn [firstn]. apply app_nil_r. Qed.
Lemma kdf_loop_ok bd z p olen : bytes z -> bytes (opt_bytes p) -> room P bd (length z + 4 + length (opt_bytes p)) ->
  forall cs t k, (olen <= length k)%nat -> (olen <= sha * t + sha * length cs)%nat -> (cs <> [] -> sha * t + sha * (length cs - 1) < olen)%nat -> (sha * t <= olen \/ cs = [])%nat ->
  kdf_loop bd sha z p olen cs (Nat.min (sha * t) olen) k =
  Some (firstn (Nat.min (sha * t) olen) k ++ firstn (olen - sha * t) (flat_map (fun c => SHA2 P (z ++ ctr_bytes c ++ opt_bytes p)) cs) ++ skipn olen k).
Proof.
  intros Hz Hp F. pose proof sha_rng as R. induction cs as [|c cs IH]; intros t k Lk L1 L2 L3.
  - cbn [kdf_loop flat_map length] in *. rewrite Nat.mul_0_r in L1. rewrite Nat.min_r by lia. rewrite firstn_nil. rewrite app_nil_l, firstn_skipn. reflexivity.
  - cbn [kdf_loop length] in *. specialize (L2 ltac:(discriminate)). destruct L3 as [L3|]; [|discriminate]. rewrite !Nat.min_l by lia.
    rewrite hashit0; [|assumption|assumption|assumption|apply repeat_length]. cbn [bind]. set (h := SHA2 P _). assert (Lh : length h = sha) by apply SHA_len.
    cbn [flat_map]. fold h.
    assert (E : (if (olen <? sha * t + sha)%nat then (olen mod sha)%nat else sha) = Nat.min sha (olen - sha * t)).
    { destruct (Nat.ltb_spec olen (sha * t + sha)); [|rewrite Nat.min_l by lia; reflexivity]. rewrite Nat.min_r by lia.
      symmetry. apply (Nat.mod_unique olen sha t); lia. }
    rewrite E. set (n := Nat.min sha (olen - sha * t)). rewrite firstn_sha by (try assumption; unfold n; lia).
    assert (Ln : length (firstn n h) = n) by (rewrite firstn_length; unfold n; lia).
    rewrite put_ok by (rewrite Ln; unfold n; lia). cbn [bind]. rewrite Ln. set (k2 := firstn (sha * t) k ++ firstn n h ++ skipn (sha * t + n) k).
    replace (sha * t + n)%nat with (Nat.min (sha * S t) olen) by (unfold n; lia).
    assert (Lk2 : length k2 = length k) by (unfold k2; rewrite !app_length, Ln, firstn_length, skipn_length; unfold n; lia).
    rewrite IH; [|rewrite Lk2; exact Lk|rewrite Nat.mul_succ_r; cbn [length] in L1; lia| |].
    2:{ intros Q. destruct cs as [|c' cs]; [contradiction|]. cbn [length] in *. rewrite Nat.mul_succ_r. lia. }
    2:{ destruct cs as [|c' cs]; [right; reflexivity|left]. cbn [length] in L2. lia. }
    f_equal.
    assert (A : firstn (Nat.min (sha * S t) olen) k2 = firstn (sha * t) k ++ firstn n h).
    { unfold k2. rewrite app_assoc. rewrite firstn_app. rewrite app_length, Ln, (firstn_length_le k) by lia.
      replace (Nat.min (sha * S t) olen) with (sha * t + n)%nat by (unfold n; lia). rewrite Nat.sub_diag. cbn [firstn]. rewrite app_nil_r. apply firstn_all2.
      rewrite app_length, Ln, firstn_length. lia. }
    assert (B : skipn olen k2 = skipn olen k).
    { unfold k2. rewrite app_assoc, skipn_app. rewrite app_length, Ln, (firstn_length_le k) by lia. rewrite skipn_all2 by (rewrite app_length, Ln, firstn_length; unfold n; lia).
      cbn [app]. rewrite skipn_skipn'. f_equal. unfold n. lia. }
    rewrite A, B, <- app_assoc. f_equal. rewrite firstn_app, Lh, <- app_assoc. f_equal.
    + unfold n. destruct (Nat.le_gt_cases sha (olen - sha * t)); [rewrite Nat.min_l by lia; rewrite !firstn_all2 by lia; reflexivity|rewrite Nat.min_r by lia; reflexivity].
    + f_equal. f_equal. lia.
Qed.
Lemma cthreshold_ok olen : cthreshold sha olen = blocks_for sha olen.
Proof.
  pose proof sha_rng as R. unfold cthreshold, blocks_for. pose proof (Nat.div_mod olen sha ltac:(lia)) as D. pose proof (Nat.mod_upper_bound olen sha ltac:(lia)) as U.
  destruct (Nat.eqb_spec (olen mod sha) 0) as [E|E].
  - apply (Nat.div_unique _ sha _ (sha - 1)); lia.
  - apply (Nat.div_unique _ sha _ (olen mod sha - 1)); lia.
Qed.
Lemma blocks_bounds olen : (olen <= sha * blocks_for sha olen)%nat /\ ((0 < blocks_for sha olen)%nat -> (sha * (blocks_for sha olen - 1) < olen)%nat).
Proof.
  pose proof sha_rng as R. rewrite <- cthreshold_ok. unfold cthreshold. pose proof (Nat.div_mod olen sha ltac:(lia)) as D. pose proof (Nat.mod_upper_bound olen sha ltac:(lia)) as U.
  destruct (Nat.eqb_spec (olen mod sha) 0) as [E|E]; split; intros; lia.
Qed.
Lemma kdf_ok bd z p olen k c0 : bytes z -> bytes (opt_bytes p) -> room P bd (length z + 4 + length (opt_bytes p)) -> (olen <= length k)%nat ->
  kdf_loop bd sha z p olen (seq c0 (cthreshold sha olen)) 0 k =
  Some (firstn olen (flat_map (fun c => SHA2 P (z ++ ctr_bytes c ++ opt_bytes p)) (seq c0 (blocks_for sha olen))) ++ skipn olen k).
Proof.
  intros Hz Hp F L. pose proof (blocks_bounds olen) as [B1 B2]. rewrite cthreshold_ok.
  pose proof (kdf_loop_ok bd z p olen Hz Hp F (seq c0 (blocks_for sha olen)) 0 k L) as Q. rewrite seq_length, !Nat.mul_0_r in Q. cbn [Nat.min firstn app Nat.add] in Q. rewrite Nat.sub_0_r in Q.
  apply Q; [exact B1| |left; lia]. intros N. apply B2. destruct (blocks_for sha olen); [contradiction|lia].
Qed.

(** HMAC *)
Lemma map_lxor2 a b l : map (Z.lxor a) (map (Z.lxor b) l) = map (Z.lxor (Z.lxor a b)) l.
Proof. rewrite map_map. apply map_ext. intros x. symmetry. apply Z.lxor_assoc. Qed.
Lemma lb_ok : (if (32 <? sha)%nat then 128%nat else 64%nat) = B P.
Proof. destruct HT as [E|[E|[E|[]]]]; inversion E; subst; reflexivity. Qed.
Lemma B_rng : (64 <= B P <= 128)%nat /\ (sha <= B P)%nat.
Proof. destruct HT as [E|[E|[E|[]]]]; inversion E; subst; vm_compute; lia. Qed.
Lemma hmac_fit bd m k olen tag : bytes m -> bytes k -> (4 <= olen)%nat -> room P bd (length k + 4) -> room P bd (B P + 4 + length m) -> room P bd (B P + 4 + sha) ->
  hmac bd sha m k olen tag = (t <- put tag 0 (fit_to olen (HMAC P k m)) ;; Some (true, t)).
Proof.
  intros Hm Hk Ho F1 F2 F3. unfold hmac. destruct (Nat.ltb_spec olen 4); [lia|]. rewrite lb_ok. pose proof B_rng as [BR BS]. pose proof sha_rng as SR.
  set (kk := if (length k <=? B P)%nat then k else SHA2 P k).
  assert (Lkk : (length kk <= B P)%nat) by (unfold kk; destruct (Nat.leb_spec (length k) (B P)); [assumption|rewrite SHA_len; lia]).
  assert (Bkk : bytes kk) by (unfold kk; destruct (length k <=? B P)%nat; [exact Hk|apply SHA2_bytes]).
  assert (E0 : (if (B P <? length k)%nat then b <- hashit bd sha k 0 None 0 (repeat 0 64);; put (repeat 0 128) 0 (firstn sha b) else put (repeat 0 128) 0 k)
     = Some (kk ++ repeat 0 (128 - length kk))).
  { assert (SK : forall n, skipn n (repeat 0 128) = repeat 0 (128 - n)).
    { intros n. destruct (Nat.le_gt_cases n 128); [|rewrite skipn_all2 by (rewrite repeat_length; lia); replace (128 - n)%nat with 0%nat by lia; reflexivity].
      replace 128%nat with (n + (128 - n))%nat at 1 by lia. rewrite repeat_app, skipn_app, repeat_length, Nat.sub_diag, skipn_all2 by (rewrite repeat_length; lia). reflexivity. }
    unfold kk. destruct (Nat.ltb_spec (B P) (length k)); destruct (Nat.leb_spec (length k) (B P)); try lia.
    - change 0 with (Z.of_nat 0) at 1. rewrite hashit0; [|assumption|constructor|cbn [opt_bytes length]; eapply room_le; [|exact F1]; lia|apply repeat_length].
      cbn [bind ctr_bytes opt_bytes app]. rewrite app_nil_r, firstn_sha by (try apply SHA_len; lia). rewrite firstn_all2 by (rewrite SHA_len; lia).
      rewrite put0 by (rewrite SHA_len, repeat_length; lia). rewrite SK. reflexivity.
    - rewrite put0 by (rewrite repeat_length; lia). rewrite SK. reflexivity. }
  rewrite E0. cbn [bind]. set (k0 := kk ++ repeat 0 (B P - length kk)).
  assert (Lk0 : length k0 = B P) by (unfold k0; rewrite app_length, repeat_length; lia).
  assert (Bk0 : bytes k0) by (apply Forall_app; split; [exact Bkk|apply zeros_bytes]).
  assert (EF : kk ++ repeat 0 (128 - length kk) = k0 ++ repeat 0 (128 - B P)).
  { unfold k0. rewrite <- app_assoc, <- repeat_app. do 2 f_equal. lia. }
  assert (FE : forall x r : list Z, length x = B P -> firstn (B P) (x ++ r) = x) by (intros x r <-; apply firstn_app_exact).
  assert (SE : forall x r : list Z, length x = B P -> skipn (B P) (x ++ r) = r) by (intros x r <-; apply skipn_app_exact).
  assert (LM : forall c, length (map (Z.lxor c) k0) = B P) by (intros; rewrite map_length; exact Lk0).
  rewrite EF, (FE k0), (SE k0) by exact Lk0. rewrite (FE (map (Z.lxor 0x36) k0)), (SE (map (Z.lxor 0x36) k0)) by apply LM. rewrite map_lxor2. change (Z.lxor 0x6a 0x36) with 0x5c.
  rewrite (FE (map (Z.lxor 0x5c) k0)) by apply LM.
  change 0 with (Z.of_nat 0) at 1. rewrite hashit0; [|apply lxor_bytes; [unfold is_byte; lia|exact Bk0]|exact Hm|cbn [opt_bytes]; eapply room_le; [|exact F2]; rewrite LM; lia|apply repeat_length].
  cbn [bind ctr_bytes opt_bytes app]. rewrite firstn_sha by (try apply SHA_len; lia). rewrite firstn_all2 by (rewrite SHA_len; lia).
  change 0 with (Z.of_nat 0) at 1. rewrite hashit_ok; [|apply lxor_bytes; [unfold is_byte; lia|exact Bk0]|apply SHA2_bytes|cbn [opt_bytes]; eapply room_le; [|exact F3]; rewrite LM, SHA_len; lia].
  reflexivity.
Qed.
End Hash.
