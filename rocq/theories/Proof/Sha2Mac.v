(** HMAC, HKDF and call histories. *)
From Verif Require Import Base.Word Base.Arr Model.Sha2Tables Model.Sha2 Spec.Bytes Spec.Sha2Spec Proof.AesBase Proof.GcmBase Proof.Sha2Block Proof.Sha2Stream.

Lemma xor_pad_ok c : forall n k, (length k <= n)%nat -> xorl (repeat c n) k ++ skipn (length k) (repeat c n) = map (Z.lxor c) (k ++ repeat 0 (n - length k)).
Proof.
  induction n as [|n IH]; intros [|x k] H; cbn [length] in *; try lia; [reflexivity| |].
  - cbn [repeat xorl skipn app Nat.sub map]. rewrite Z.lxor_0_r. f_equal. clear. induction n as [|n IH]; [reflexivity|]. cbn [repeat map]. rewrite Z.lxor_0_r. f_equal. exact IH.
  - cbn [repeat xorl skipn app Nat.sub map]. f_equal. apply IH. lia.
Qed.
Lemma lxor_bytes c l : is_byte c -> bytes l -> bytes (map (Z.lxor c) l).
Proof. intros Hc H. induction H as [|x l Hx H IH]; cbn [map]; constructor; [|exact IH]. apply (byte_xor c x Hc Hx). Qed.
Lemma zeros_bytes n : bytes (repeat 0 n).
Proof. apply Forall_forall. intros x Hx. apply repeat_spec in Hx. subst. unfold is_byte. lia. Qed.

Section Mac.
Variables (C : sha) (P : sha_par).
Hypothesis HM : matches C P.
Let wb := wbytes P.
Let room (bd : build) (n : Z) : Prop := fits P bd (n + 32 * Z.of_nat wb).

Lemma hash_of_ok bd m : bytes m -> room bd (Z.of_nat (length m)) -> hash_of C bd m = Some (SHA2 P m).
Proof.
  intros Hm F. unfold hash_of. pose proof (new_ok C P HM) as N.
  pose proof (init_ok C P HM (h_new C) (i_wl _ _ _ N) (i_w _ _ _ N)) as I0.
  destruct (process_array_ok C P HM bd m [] _ I0 Hm) as [s [E I]]; [eapply fits_le; [|exact F]; cbn [length]; lia|]. rewrite E. cbn [bind].
  destruct (hash_ok C P HM bd _ s I F) as [s' [E' _]]. rewrite E'. reflexivity.
Qed.
Lemma block_B : BLOCK C = B P.
Proof. unfold BLOCK, B. rewrite (mW _ _ HM). destruct (mW2 _ _ HM) as [E | E]; unfold wbytes; rewrite E; reflexivity. Qed.
Lemma hmac_ok bd key text : bytes key -> bytes text ->
  room bd (Z.of_nat (length key)) -> room bd (16 * Z.of_nat wb + Z.of_nat (length text)) -> room bd (16 * Z.of_nat wb + Z.of_nat (outlen P)) ->
  hmac C bd key text = Some (HMAC P key text).
Proof.
  intros Hk Ht F1 F2 F3. unfold hmac, HMAC, xor_pad. rewrite block_B.
  pose proof (mO2 _ _ HM) as O2. assert (BW : B P = (16 * wb)%nat) by reflexivity. pose proof (wb_pos C P HM) as WB. fold wb in O2, WB.
  set (k := if (length key <=? B P)%nat then key else SHA2 P key).
  assert (KE : (if (B P <? length key)%nat then hash_of C bd key else Some key) = Some k).
  { unfold k. destruct (Nat.ltb_spec (B P) (length key)); destruct (Nat.leb_spec (length key) (B P)); try lia; [|reflexivity]. apply hash_of_ok; assumption. }
  assert (KL : (length k <= B P)%nat).
  { unfold k. destruct (Nat.leb_spec (length key) (B P)); [assumption|]. rewrite (SHA2_length C P HM). lia. }
  assert (KB : bytes k) by (unfold k; destruct (length key <=? B P)%nat; [exact Hk|apply SHA2_bytes]).
  rewrite KE. cbn [bind]. rewrite !xor_pad_ok by exact KL.
  set (k0 := k ++ repeat 0 (B P - length k)). assert (K0B : bytes k0) by (apply Forall_app; split; [exact KB|apply zeros_bytes]).
  assert (K0L : length k0 = B P) by (unfold k0; rewrite app_length, repeat_length; lia).
  rewrite hash_of_ok.
  2:{ apply Forall_app. split; [|exact Ht]. apply lxor_bytes; [unfold is_byte; lia|exact K0B]. }
  2:{ unfold room. eapply fits_le; [|exact F2]. rewrite app_length, map_length, K0L, BW. lia. }
  cbn [bind]. apply hash_of_ok.
  - apply Forall_app. split; [apply lxor_bytes; [unfold is_byte; lia|exact K0B]|]. apply SHA2_bytes.
  - unfold room. eapply fits_le; [|exact F3]. rewrite app_length, map_length, K0L, BW, (SHA2_length C P HM). lia.
Qed.
Lemma HMAC_length key text : length (HMAC P key text) = outlen P.
Proof. apply (SHA2_length C P HM). Qed.
Lemma HMAC_bytes key text : bytes (HMAC P key text).
Proof. apply SHA2_bytes. Qed.
Lemma T_bytes prk info i : bytes (T P prk info i).
Proof. destruct i; [constructor|apply HMAC_bytes]. Qed.
Lemma T_len prk info i : (length (T P prk info i) <= outlen P)%nat.
Proof. destruct i; [cbn; lia|cbn [T]; rewrite HMAC_length; lia]. Qed.
Definition hkdf_room (bd : build) (prk info : list Z) : Prop :=
  room bd (Z.of_nat (length prk)) /\ room bd (16 * Z.of_nat wb + Z.of_nat (outlen P) + Z.of_nat (length info) + 1).
Lemma hkdf_loop_ok bd prk info : bytes prk -> bytes info -> hkdf_room bd prk info -> forall n i, (i + n <= 255)%nat ->
  hkdf_loop C bd n i prk info (T P prk info i) = Some (flat_map (T P prk info) (seq (i + 1) n)).
Proof.
  intros Hp Hi [F1 F2]. induction n as [|n IH]; intros i Hn; [reflexivity|]. cbn [hkdf_loop seq flat_map].
  pose proof (T_len prk info i) as TL. unfold room in *.
  assert (E : hmac C bd prk (T P prk info i ++ info ++ [Z.of_nat (i + 1)]) = Some (T P prk info (i + 1))).
  { replace (i + 1)%nat with (S i) by lia. cbn [T]. apply hmac_ok; try assumption.
    - apply Forall_app. split; [apply T_bytes|]. apply Forall_app. split; [exact Hi|]. constructor; [unfold is_byte; lia|constructor].
    - unfold room. eapply fits_le; [|exact F2]. rewrite !app_length. cbn [length]. lia.
    - unfold room. eapply fits_le; [|exact F2]. lia. }
  rewrite E. cbn [bind]. rewrite IH by lia. cbn [bind]. replace (i + 1 + 1)%nat with (S (i + 1)) by lia. reflexivity.
Qed.
Lemma T_all_len prk info : forall n i, (1 <= i)%nat -> length (flat_map (T P prk info) (seq i n)) = (n * outlen P)%nat.
Proof.
  induction n as [|n IH]; intros i Hi; [reflexivity|]. cbn [seq flat_map]. rewrite app_length, IH by lia. destruct i; [lia|]. cbn [T]. rewrite HMAC_length. lia.
Qed.
Lemma hkdf_extend_ok bd prk info l : bytes prk -> bytes info -> 0 <= l < 256 -> hkdf_room bd prk info ->
  hkdf_extend C bd prk info l = Some (HKDF_Expand P prk info (Z.to_nat l)).
Proof.
  intros Hp Hi Hl F. unfold hkdf_extend, HKDF_Expand. rewrite (mO _ _ HM). pose proof (mO2 _ _ HM) as O2. pose proof (mO3 _ _ HM) as O3.
  set (o := outlen P) in *. set (L := Z.to_nat l). assert (EL : l = Z.of_nat L) by lia. rewrite EL in *. clearbody L. clear EL.
  rewrite <- Nat2Z.inj_div, <- Nat2Z.inj_mul. set (n := (L / o)%nat).
  pose proof (Nat.div_mod L o ltac:(lia)) as DM. pose proof (Nat.mod_upper_bound L o ltac:(lia)) as MB. fold n in DM.
  rewrite chku_ok by (change (2 ^ 8) with 256; lia). cbn [bind].
  assert (N : (if (Z.of_nat (n * o) <? Z.of_nat L) then uadd bd 8 (Z.of_nat n) 1 else Some (Z.of_nat n)) = Some (Z.of_nat ((L + o - 1) / o)%nat)
     /\ ((L + o - 1) / o <= 255)%nat /\ (L <= (L + o - 1) / o * o)%nat).
  { assert (NL : (n <= 255 - 0)%nat) by (assert (n <= L)%nat by (unfold n; apply Nat.div_le_upper_bound; [lia|]; rewrite <- (Nat.mul_1_l L) at 1; apply Nat.mul_le_mono_r; lia); lia).
    destruct (Z.ltb_spec (Z.of_nat (n * o)) (Z.of_nat L)) as [LT|GE].
    - replace ((L + o - 1) / o)%nat with (n + 1)%nat.
      2:{ apply (Nat.div_unique _ _ _ (L mod o - 1)); [lia|]. lia. }
      assert (NS : (n + 1 <= 255)%nat) by (destruct (Nat.eq_dec o 1) as [O1|O1]; [rewrite O1 in *; lia|]; assert (n * 2 <= n * o)%nat by (apply Nat.mul_le_mono_l; lia); lia).
      split; [|split; [exact NS|]].
      + unfold uadd. destruct bd; [rewrite chku_ok by (change (2 ^ 8) with 256; lia)|unfold wrapu; rewrite Z.mod_small by (change (2 ^ 8) with 256; lia)]; f_equal; lia.
      + rewrite Nat.mul_add_distr_r, Nat.mul_comm. lia.
    - replace ((L + o - 1) / o)%nat with n.
      2:{ apply (Nat.div_unique _ _ _ (o - 1)); lia. }
      split; [reflexivity|]. split; [lia|]. rewrite Nat.mul_comm. lia. }
  destruct N as [-> [N1 N2]]. cbn [bind]. rewrite Nat2Z.id. pose proof (hkdf_loop_ok bd prk info Hp Hi F ((L + o - 1) / o) 0 ltac:(lia)) as E.
  change (T P prk info 0) with (@nil Z) in E. rewrite E. cbn [bind]. f_equal. unfold resize. rewrite ?Nat2Z.id. rewrite (T_all_len prk info _ 1) by lia. fold o.
  replace (L - (L + o - 1) / o * o)%nat with 0%nat by lia. cbn [repeat]. apply app_nil_r.
Qed.

(** ** histories *)
Fixpoint run_ops (bd : build) (s : hst) (ops : list hop) : option (list (list Z) * hst) :=
  match ops with
  | [] => Some ([], s)
  | o :: t =>
      r <- match o with
           | Byte b => s' <- process C bd s b ;; Some ([], s')
           | Bytes l => s' <- process_array C bd s l ;; Some ([], s')
           | Num n => s' <- process_num C bd s n ;; Some ([], s')
           | Digest => r <- hash C bd s ;; Some ([fst r], snd r)
           | Reset => Some ([], h_init C s)
           end ;;
      q <- run_ops bd (snd r) t ;; Some (fst r ++ fst q, snd q)
  end.
(** no message reaches the counter limit of a debug build *)
Fixpoint short_messages (bd : build) (cur : list Z) (ops : list hop) : Prop :=
  match ops with [] => True | o :: t => room bd (Z.of_nat (length cur)) /\ room bd (Z.of_nat (length (absorbed cur o))) /\ short_messages bd (absorbed cur o) t end.
Lemma run_ops_ok bd : forall ops cur s, inv P cur s -> Forall hop_ok ops -> short_messages bd cur ops ->
  exists s', run_ops bd s ops = Some (digests P cur ops, s').
Proof.
  induction ops as [|o ops IH]; intros cur s I H F; [exists s; reflexivity|]. inversion H as [|? ? H1 H2]; subst. destruct F as [F0 [F1 F2]]. cbn [run_ops digests].
  unfold room in *.
  assert (G : exists s1, (match o with
           | Byte b => s' <- process C bd s b ;; Some ([], s')
           | Bytes l => s' <- process_array C bd s l ;; Some ([], s')
           | Num n => s' <- process_num C bd s n ;; Some ([], s')
           | Digest => r <- hash C bd s ;; Some ([fst r], snd r)
           | Reset => Some ([], h_init C s)
           end) = Some (match o with Digest => [SHA2 P cur] | _ => [] end, s1) /\ inv P (absorbed cur o) s1).
  { destruct o as [b|l|n| |]; cbn [absorbed hop_ok] in *.
    - destruct (process_ok C P HM bd cur s b I H1) as [s1 [-> I1]]; [eapply fits_le; [|exact F1]; rewrite app_length; cbn [length]; lia|]. exists s1. auto.
    - destruct (process_array_ok C P HM bd l cur s I H1) as [s1 [-> I1]]; [eapply fits_le; [|exact F1]; rewrite app_length; lia|]. exists s1. auto.
    - destruct (process_num_ok C P HM bd n cur s I) as [s1 [-> I1]]; [eapply fits_le; [|exact F1]; rewrite app_length, i2osp_length; lia|]. exists s1. auto.
    - destruct (hash_ok C P HM bd cur s I F0) as [s1 [-> I1]]. exists s1. auto.
    - exists (h_init C s). split; [reflexivity|]. apply (init_ok C P HM); apply I. }
  destruct G as [s1 [-> I1]]. cbn [bind snd fst]. destruct (IH _ _ I1 H2 F2) as [s2 ->]. cbn [bind fst snd]. exists s2. reflexivity.
Qed.
(** a debug build cannot take the byte that makes the low counter wrap *)
Lemma debug_limit m s b : inv P m s -> 8 * (Z.of_nat (length m) + 1) = 2 ^ W P -> process C Debug s b = None.
Proof.
  intros I E. unfold process. rewrite (i_l0 _ _ _ I), (mW _ _ HM). unfold uadd, chku, blen. pose proof (pow2_pos (W P)) as PP. pose proof (wpos C P HM).
  rewrite Z.mod_small by lia. replace (in_u (W P) (8 * Z.of_nat (length m) + 8)) with false; [reflexivity|].
  symmetry. apply not_true_is_false. rewrite in_u_spec. lia.
Qed.
End Mac.
