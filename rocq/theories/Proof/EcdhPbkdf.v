(** PBKDF2 of the ECDH module, exactly as coded. *)
From Verif Require Import Base.Word Base.Arr Model.Sha2 Model.Ecdh Spec.Bytes Spec.Sha2Spec Spec.KdfSpec Proof.Sha2Block Proof.Sha2Stream Proof.Sha2Mac Proof.EcdhSym.

(** the counter buffer *)
Lemma int_loop_ok : forall w m q b, 0 <= q <= m -> (w <= length b)%nat -> firstn w b = i2osp q w -> int_loop w m b = i2osp m w ++ skipn w b.
Proof.
  induction w as [|w IH]; intros m q b Hq L E; [reflexivity|]. cbn [int_loop]. cbn [i2osp] in E. destruct (Z.ltb_spec 0 m).
  - assert (FA : forall (l : list Z) i v, firstn i (aset l i v) = firstn i l).
    { clear. induction l as [|x l IH]; intros [|i] v; try reflexivity. cbn [aset firstn]. f_equal. apply IH. }
    assert (SA : forall (l : list Z) i v, (i < length l)%nat -> skipn i (aset l i v) = v :: skipn (S i) l).
    { clear. induction l as [|x l IH]; intros [|i] v H; cbn [length] in H; try lia; [reflexivity|]. cbn [aset skipn]. apply IH. lia. }
    rewrite (IH (m / 256) (q / 256)).
    + cbn [i2osp]. rewrite <- app_assoc, SA by lia. cbn [app]. f_equal. f_equal. change 255 with (Z.ones 8). rewrite Z.land_ones by lia. reflexivity.
    + split; [apply Z.div_pos; lia|apply Z.div_le_mono; lia].
    + rewrite aset_length. lia.
    + rewrite FA. apply (f_equal (firstn w)) in E. rewrite firstn_firstn, Nat.min_l in E by lia. rewrite E.
      rewrite firstn_app, i2osp_length, Nat.sub_diag. cbn [firstn]. rewrite app_nil_r. apply firstn_all2. rewrite i2osp_length. lia.
  - assert (m = 0) by lia. assert (q = 0) by lia. subst. rewrite <- (firstn_skipn (S w) b) at 1. f_equal. exact E.
Qed.
Lemma inttobytes_next i : inttobytes (Z.of_nat i + 1) (i2osp (Z.of_nat i) 4) = i2osp (Z.of_nat (S i)) 4.
Proof.
  unfold inttobytes. rewrite i2osp_length. rewrite (int_loop_ok 4 _ (Z.of_nat i)).
  - rewrite skipn_all2 by (rewrite i2osp_length; lia). rewrite app_nil_r. f_equal. lia.
  - lia.
  - rewrite i2osp_length. lia.
  - apply firstn_all2. rewrite i2osp_length. lia.
Qed.

(** the iteration as coded: every HMAC input after the first one is the previous output followed by zeros up to 64 bytes *)
Fixpoint coded_U (P : sha_par) (pass s : list Z) (j : nat) : list Z :=
  match j with O => HMAC P pass s | S m => HMAC P pass (coded_U P pass s m ++ repeat 0 (64 - outlen P)) end.
Fixpoint coded_xor (P : sha_par) (pass s : list Z) (c : nat) : list Z :=
  match c with O => coded_U P pass s 0 | S m => xorl (coded_xor P pass s m) (coded_U P pass s c) end.
Definition coded_F (P : sha_par) (pass salt : list Z) (c i : nat) : list Z := coded_xor P pass (salt ++ i2osp (Z.of_nat i) 4) (c - 1).
(** the EFS bytes of block i that are copied out *)
Definition coded_G (P : sha_par) (efs : nat) (pass salt : list Z) (c i : nat) : list Z :=
  map (at_ (coded_F P pass salt c i ++ repeat 0 (64 - outlen P))) (seq 0 efs).

Lemma pbkdf_out_ok olen f : forall m j kp k, (Nat.min olen 64 <= length k)%nat ->
  pbkdf_out (seq j m) olen kp f k =
  Some (firstn (Nat.min kp (Nat.min olen 64)) k ++ firstn (Nat.min olen 64 - kp) (map (at_ f) (seq j m)) ++ skipn (Nat.min (kp + m) (Nat.min olen 64)) k).
Proof.
  set (lim := Nat.min olen 64). induction m as [|m IH]; intros j kp k L.
  - cbn [seq pbkdf_out map]. rewrite firstn_nil, Nat.add_0_r. cbn [app]. rewrite firstn_skipn. reflexivity.
  - cbn [seq pbkdf_out map]. destruct (Nat.ltb_spec kp olen); destruct (Nat.ltb_spec kp 64); cbn [andb];
      [|cbn [bind]; rewrite IH by exact L; replace (lim - S kp)%nat with 0%nat by lia; replace (lim - kp)%nat with 0%nat by lia; cbn [firstn]; rewrite !Nat.min_r by lia; reflexivity ..].
    rewrite put_ok by (cbn [length]; lia). cbn [bind length].
    set (k2 := firstn kp k ++ [at_ f j] ++ skipn (kp + 1) k).
    assert (L2 : length k2 = length k) by (unfold k2; rewrite !app_length, firstn_length, skipn_length; cbn [length]; lia).
    rewrite IH by (rewrite L2; exact L). f_equal. rewrite (Nat.min_l (S kp) lim) by lia. replace (lim - kp)%nat with (S (lim - S kp)) by lia. rewrite firstn_cons.
    assert (A : firstn (S kp) k2 = firstn kp k ++ [at_ f j]).
    { unfold k2. rewrite app_assoc. set (x := firstn kp k ++ [at_ f j]). replace (S kp) with (length x) by (unfold x; rewrite app_length, firstn_length; cbn [length]; lia). apply firstn_app_exact. }
    rewrite (Nat.min_l kp lim) by lia. rewrite A, <- app_assoc. f_equal. cbn [app]. f_equal. f_equal. replace (S kp + m)%nat with (kp + S m)%nat by lia. set (e := Nat.min (kp + S m) lim).
    unfold k2. rewrite app_assoc, skipn_app, app_length, firstn_length_le by lia. cbn [length]. rewrite skipn_all2 by (rewrite app_length, firstn_length; cbn [length]; lia).
    cbn [app]. rewrite skipn_skipn'. f_equal. lia.
Qed.

Lemma map_at_all (l : list Z) n : (n <= length l)%nat -> map (at_ l) (seq 0 n) = firstn n l.
Proof.
  revert l. induction n as [|n IH]; intros l L; [reflexivity|]. destruct l as [|x l]; cbn [length] in L; [lia|]. cbn [seq map firstn at_ nth]. f_equal.
  rewrite <- seq_shift, map_map. rewrite <- IH by lia. apply map_ext. intros a. reflexivity.
Qed.

Section Pb.
Variables (sha : nat) (P : sha_par) (bd : build) (pass salt : list Z) (rep olen efs : nat).
Hypothesis HT : In (sha, P) sha_types.
Hypotheses (Hp : bytes pass) (Hs : bytes salt) (F1 : room P bd (length pass + 4)) (F2 : room P bd (B P + 68)).
Hypothesis SL : (length salt <= 32)%nat.

Lemma cU_len s j : length (coded_U P pass s j) = sha.
Proof. destruct j; cbn [coded_U]; apply (HM_len sha P HT). Qed.
Lemma cX_len s c : length (coded_xor P pass s c) = sha.
Proof. induction c as [|c IH]; cbn [coded_xor]; [apply cU_len|]. rewrite xorl_length, IH, cU_len. apply Nat.min_id. Qed.
Lemma cU_bytes s j : bytes (coded_U P pass s j).
Proof. destruct j; cbn [coded_U]; apply (HMAC_bytes P). Qed.
Lemma firstn_len (a b : list Z) : length a = sha -> firstn sha (a ++ b) = a. Proof. intros <-. apply firstn_app_exact. Qed.
Lemma skipn_len (a b : list Z) : length a = sha -> skipn sha (a ++ b) = b. Proof. intros <-. apply skipn_app_exact. Qed.
Lemma hm m tag : bytes m -> (length m <= 64)%nat -> length tag = 64%nat -> hmac bd sha m pass sha tag = Some (true, HMAC P pass m ++ skipn sha tag).
Proof.
  intros Hm Lm Lt. pose proof (sha_rng sha P HT) as R. rewrite (hmac_fit sha P HT); try assumption; [|lia|eapply room_le; [|exact F2]; lia|eapply room_le; [|exact F2]; lia].
  unfold fit_to. rewrite (HM_len sha P HT). destruct (Nat.eqb_spec sha 0); [lia|]. rewrite Nat.leb_refl, firstn_all2 by (rewrite (HM_len sha P HT); lia).
  rewrite put0 by (rewrite (HM_len sha P HT); lia). rewrite (HM_len sha P HT). reflexivity.
Qed.
Lemma turns_ok s : forall n j ku, length ku = 64%nat ->
  exists ku', pbkdf_turns bd n sha pass (coded_U P pass s j ++ repeat 0 (64 - sha)) (coded_xor P pass s j ++ repeat 0 (64 - sha)) ku
    = Some (coded_U P pass s (j + n) ++ repeat 0 (64 - sha), coded_xor P pass s (j + n) ++ repeat 0 (64 - sha), ku') /\ length ku' = 64%nat.
Proof.
  pose proof (sha_rng sha P HT) as R. induction n as [|n IH]; intros j ku L.
  - exists ku. rewrite Nat.add_0_r. split; [reflexivity|exact L].
  - cbn [pbkdf_turns]. rewrite hm; [|apply Forall_app; split; [apply cU_bytes|apply zeros_bytes]|rewrite app_length, cU_len, repeat_length; lia|exact L].
    cbn [bind snd].
    assert (E : HMAC P pass (coded_U P pass s j ++ repeat 0 (64 - sha)) = coded_U P pass s (S j)) by (cbn [coded_U]; rewrite (sha_out sha P HT); reflexivity).
    rewrite E. rewrite (firstn_len _ (skipn sha ku)) by apply cU_len. rewrite put0 by (rewrite app_length, !cU_len; lia). cbn [bind].
    rewrite cU_len, (skipn_len (coded_U P pass s j)) by apply cU_len. rewrite (firstn_len (coded_U P pass s (S j))) by apply cU_len.
    rewrite (firstn_len (coded_xor P pass s j)), (skipn_len (coded_xor P pass s j)) by apply cX_len. change (xorl (coded_xor P pass s j) (coded_U P pass s (S j))) with (coded_xor P pass s (S j)).
    destruct (IH (S j) (coded_U P pass s (S j) ++ skipn sha ku)) as [ku' [E2 L2]]; [rewrite app_length, cU_len, skipn_length; lia|].
    exists ku'. split; [|exact L2]. rewrite E2. replace (S j + n)%nat with (j + S n)%nat by lia. reflexivity.
Qed.
Lemma blocks_loop_ok : forall d i u f ku k, length ku = 64%nat -> length u = 64%nat -> length f = 64%nat -> skipn sha u = repeat 0 (64 - sha) -> skipn sha f = repeat 0 (64 - sha) ->
  (Nat.min olen 64 <= length k)%nat ->
  pbkdf_blocks bd sha efs pass salt rep olen (seq i d) (i2osp (Z.of_nat i) 4) u f ku k =
  Some (firstn (Nat.min (i * efs) (Nat.min olen 64)) k ++ firstn (Nat.min olen 64 - i * efs) (flat_map (coded_G P efs pass salt rep) (seq (S i) d)) ++ skipn (Nat.min ((i + d) * efs) (Nat.min olen 64)) k).
Proof.
  pose proof (sha_rng sha P HT) as R. set (lim := Nat.min olen 64). induction d as [|d IH]; intros i u f ku k Lku Lu Lf Zu Zf Lk.
  - cbn [seq pbkdf_blocks flat_map]. rewrite firstn_nil, Nat.add_0_r. cbn [app]. rewrite firstn_skipn. reflexivity.
  - cbn [seq pbkdf_blocks flat_map].
    rewrite put0 by (rewrite repeat_length; lia). cbn [bind]. rewrite inttobytes_next.
    rewrite put_ok by (rewrite i2osp_length, app_length, skipn_length, repeat_length; lia). cbn [bind].
    set (sb := salt ++ i2osp (Z.of_nat (S i)) 4).
    assert (E1 : firstn (length salt + 4) (firstn (length salt) (salt ++ skipn (length salt) (repeat 0 36)) ++ i2osp (Z.of_nat (S i)) 4 ++
       skipn (length salt + length (i2osp (Z.of_nat (S i)) 4)) (salt ++ skipn (length salt) (repeat 0 36))) = sb).
    { rewrite firstn_app_exact, app_assoc. fold sb. replace (length salt + 4)%nat with (length sb) by (unfold sb; rewrite app_length, i2osp_length; lia). apply firstn_app_exact. }
    rewrite E1. clear E1.
    rewrite hm; [|apply Forall_app; split; [exact Hs|apply i2osp_bytes]|unfold sb; rewrite app_length, i2osp_length; lia|exact Lf].
    cbn [bind snd]. change (HMAC P pass sb) with (coded_U P pass sb 0). rewrite Zf. rewrite (firstn_len (coded_U P pass sb 0)) by apply cU_len.
    rewrite put0 by (rewrite cU_len; lia). cbn [bind]. rewrite cU_len, Zu.
    destruct (turns_ok sb (rep - 1) 0 ku Lku) as [ku' [E2 L2]]. change (coded_xor P pass sb 0) with (coded_U P pass sb 0) in E2. rewrite E2. clear E2. cbn [bind Nat.add].
    fold (coded_F P pass salt rep (S i)). rewrite pbkdf_out_ok by exact Lk. fold lim. cbn [bind].
    change (coded_xor P pass sb (rep - 1)) with (coded_F P pass salt rep (S i)).
    assert (EG : map (at_ (coded_F P pass salt rep (S i) ++ repeat 0 (64 - sha))) (seq 0 efs) = coded_G P efs pass salt rep (S i)) by (unfold coded_G; rewrite (sha_out sha P HT); reflexivity).
    rewrite EG. set (G := coded_G P efs pass salt rep (S i)). assert (LG : length G = efs) by (unfold G, coded_G; rewrite map_length, seq_length; reflexivity).
    set (k2 := firstn (Nat.min (i * efs) lim) k ++ firstn (lim - i * efs) G ++ skipn (Nat.min (i * efs + efs) lim) k).
    assert (LA : length (firstn (Nat.min (i * efs) lim) k ++ firstn (lim - i * efs) G) = Nat.min (S i * efs) lim) by (rewrite app_length, !firstn_length, LG; cbn [Nat.mul]; lia).
    assert (Lk2 : length k2 = length k) by (unfold k2; rewrite app_assoc, app_length, LA, skipn_length; cbn [Nat.mul]; lia).
    rewrite IH; [|assumption|rewrite app_length, cU_len, repeat_length; lia|unfold coded_F; rewrite app_length, cX_len, repeat_length; lia|apply skipn_len, cU_len|apply skipn_len; apply cX_len|rewrite Lk2; exact Lk].
    f_equal.
    assert (A : firstn (Nat.min (S i * efs) lim) k2 = firstn (Nat.min (i * efs) lim) k ++ firstn (lim - i * efs) G).
    { unfold k2. rewrite app_assoc, <- LA. apply firstn_app_exact. }
    rewrite A, <- !app_assoc. f_equal. rewrite firstn_app, LG, <- app_assoc. f_equal. replace (lim - i * efs - efs)%nat with (lim - S i * efs)%nat by (cbn [Nat.mul]; lia). f_equal.
    replace ((S i + d) * efs)%nat with ((i + S d) * efs)%nat by (f_equal; lia). set (e := Nat.min ((i + S d) * efs) lim).
    unfold k2. rewrite app_assoc, skipn_app, LA. rewrite skipn_all2.
    2:{ rewrite LA. unfold e. assert (S i * efs <= (i + S d) * efs)%nat by (apply Nat.mul_le_mono_r; lia). lia. }
    cbn [app]. rewrite skipn_skipn'. f_equal. cbn [Nat.mul]. assert (S i * efs <= (i + S d) * efs)%nat by (apply Nat.mul_le_mono_r; lia). unfold e. cbn [Nat.mul] in *. lia.
Qed.
Lemma pbkdf2_ok k : (Nat.min olen 64 <= length k)%nat ->
  pbkdf2 bd efs sha pass salt rep olen k =
  Some (firstn (Nat.min olen 64) (flat_map (coded_G P efs pass salt rep) (seq 1 (blocks_for sha olen))) ++ skipn (Nat.min (blocks_for sha olen * efs) (Nat.min olen 64)) k).
Proof.
  intros L. pose proof (sha_rng sha P HT) as R. unfold pbkdf2. destruct (Nat.eqb_spec sha 0); [lia|]. rewrite (cthreshold_ok sha P HT).
  change (repeat 0 4) with (i2osp (Z.of_nat 0) 4).
  assert (SK : skipn sha (repeat 0 64) = repeat 0 (64 - sha)).
  { replace 64%nat with (sha + (64 - sha))%nat at 1 by lia. rewrite repeat_app. apply skipn_len. apply repeat_length. }
  rewrite blocks_loop_ok by (try apply repeat_length; try exact SK; exact L).
  cbn [Nat.mul Nat.min firstn app Nat.add]. rewrite Nat.sub_0_r. reflexivity.
Qed.
(** when the coded iteration is the standard one *)
Lemma coded_standard i : (rep <= 1 \/ sha = 64)%nat -> coded_F P pass salt rep i = pb_F P pass salt rep i.
Proof.
  intros H. unfold coded_F, pb_F. set (s := salt ++ _). destruct H as [H|H].
  - replace (rep - 1)%nat with 0%nat by lia. reflexivity.
  - assert (U : forall j, coded_U P pass s j = pb_U (HMAC P pass) s j).
    { induction j as [|j IH]; cbn [coded_U pb_U]; [reflexivity|]. rewrite (sha_out sha P HT), H, Nat.sub_diag, IH. cbn [repeat]. rewrite app_nil_r. reflexivity. }
    induction (rep - 1)%nat as [|c IH]; cbn [coded_xor pb_xor]; [apply U|]. rewrite IH, U. reflexivity.
Qed.
Lemma coded_G_efs i : efs = sha -> coded_G P efs pass salt rep i = coded_F P pass salt rep i.
Proof.
  intros ->. unfold coded_G. rewrite map_at_all by (unfold coded_F; rewrite app_length, cX_len; clear; lia). apply firstn_len. apply cX_len.
Qed.
End Pb.
Lemma firstn_map' {A B} (f : A -> B) (l : list A) n : firstn n (map f l) = map f (firstn n l).
Proof. revert n. induction l as [|x l IH]; intros [|n]; cbn [map firstn]; try reflexivity. rewrite IH. reflexivity. Qed.
Lemma firstn_seq' m : forall s n, (n <= m)%nat -> firstn n (seq s m) = seq s n.
Proof. induction m as [|m IH]; intros s [|n] H; try lia; try reflexivity. cbn [seq]. rewrite firstn_cons, IH by lia. reflexivity. Qed.
