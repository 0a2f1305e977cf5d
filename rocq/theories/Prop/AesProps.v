(** C24-C26: AES.  [aes_enc]/[aes_dec] are FIPS-197 (Spec/AesSpec.v); [st_ok b]: b is a list of 16 bytes;
    [aes_wf a]: the key arrays of the object have their fixed length 60 (true of AES::new() and preserved). *)
From Verif Require Import Base.Word Base.Arr Model.AesTables Model.Aes Spec.AesSpec Proof.AesBase Proof.AesBlock Proof.AesKey Proof.AesCipher.

(** ** C24 *)
(** after a successful init the block operations are FIPS-197 with that key, whatever the object held before *)
Theorem C24_fips197 : forall a m key iv b, aes_wf a -> keylen key -> Forall byte_ok key -> st_ok b ->
  exists a', aes_init a m (length key) key iv = Some (true, a') /\ ecb_encrypt a' b = aes_enc key b /\ ecb_decrypt a' b = aes_dec key b.
Proof.
  intros a m key iv b Ha Hl Hk Hb.
  assert (E : (4 * (length key / 4) = length key)%nat) by (destruct Hl as [->|[->| ->]]; reflexivity).
  destruct (init_keyed a m (length key) key iv Ha Hk) as [a' [H1 [H2 _]]]; [lia|destruct Hl as [->|[->| ->]]; cbn; tauto|].
  rewrite E, firstn_all in H2. exists a'. split; [exact H1|]. split; [apply keyed_enc|apply keyed_dec]; assumption.
Qed.
Print Assumptions C24_fips197.
(** the length is taken from the nkey argument, rounded down to a multiple of 4 *)
Theorem C24_nkey : forall a m nkey key iv b, aes_wf a -> Forall byte_ok key -> (4 * (nkey / 4) <= length key)%nat ->
  In (nkey / 4)%nat [4%nat; 6%nat; 8%nat] -> st_ok b ->
  exists a', aes_init a m nkey key iv = Some (true, a') /\ ecb_encrypt a' b = aes_enc (firstn (4 * (nkey / 4)) key) b.
Proof.
  intros a m nkey key iv b Ha Hk Hl Hn Hb. destruct (init_keyed a m nkey key iv Ha Hk Hl) as [a' [H1 [H2 _]]].
  - cbn [In] in Hn. destruct Hn as [<-|[<-|[<-|[]]]]; tauto.
  - exists a'. split; [exact H1|]. apply keyed_enc; assumption.
Qed.
Print Assumptions C24_nkey.
Theorem C24_rejects : forall a m nkey key iv, ~ In (nkey / 4)%nat [4%nat; 6%nat; 8%nat] -> aes_init a m nkey key iv = Some (false, a).
Proof.
  intros a m nkey key iv H. unfold aes_init. destruct (Nat.eqb_spec (nkey / 4) 4) as [E|_]; [exfalso; apply H; rewrite E; cbn; tauto|].
  destruct (Nat.eqb_spec (nkey / 4) 6) as [E|_]; [exfalso; apply H; rewrite E; cbn; tauto|]. destruct (Nat.eqb_spec (nkey / 4) 8) as [E|_]; [exfalso; apply H; rewrite E; cbn; tauto|]. reflexivity.
Qed.
Print Assumptions C24_rejects.
(** a key slice shorter than announced panics *)
Theorem C24_short_key : forall a m nkey key iv, In (nkey / 4)%nat [4%nat; 6%nat; 8%nat] -> (length key < 4 * (nkey / 4))%nat -> aes_init a m nkey key iv = None.
Proof.
  intros a m nkey key iv H Hl. unfold aes_init. set (nk := (nkey / 4)%nat) in *.
  replace (negb (Nat.eqb nk 4) && negb (Nat.eqb nk 6) && negb (Nat.eqb nk 8)) with false by (cbn [In] in H; destruct H as [<-|[<-|[<-|[]]]]; reflexivity).
  assert (E : forall n k, (length k < 4 * n)%nat -> load_key n k = None).
  { induction n as [|n IH]; intros k Hk; [lia|]. cbn [load_key]. destruct k as [|k0 [|k1 [|k2 [|k3 k]]]]; try reflexivity. cbn [length] in Hk. rewrite IH by lia. reflexivity. }
  rewrite E by exact Hl. reflexivity.
Qed.
Print Assumptions C24_short_key.
(** "rejects every other key length" is false: 17 bytes are accepted as a 16-byte key *)
Theorem C24_other_lengths_refuted : forall key, length key = 17%nat -> Forall byte_ok key ->
  exists a', aes_init aes_new ECB 17 key None = Some (true, a') /\ keyed a' (firstn 16 key).
Proof.
  intros key Hl Hk. destruct (init_keyed aes_new ECB 17 key None) as [a' [H1 [H2 _]]]; [split; reflexivity|exact Hk|rewrite Hl; cbn; lia|cbn; tauto|].
  exists a'. split; [exact H1|exact H2].
Qed.
Print Assumptions C24_other_lengths_refuted.
(** FIPS-197 appendix C.3 through the model *)
Example C24_ex : exists a, aes_init aes_new ECB 32 (map Z.of_nat (seq 0 32)) None = Some (true, a)
  /\ ecb_encrypt a [0; 17; 34; 51; 68; 85; 102; 119; 136; 153; 170; 187; 204; 221; 238; 255] = [142; 162; 183; 202; 81; 103; 69; 191; 234; 252; 73; 144; 75; 73; 96; 137].
Proof. eexists. split; [vm_compute; reflexivity|]. vm_compute. reflexivity. Qed.

(** ** C25 *)
Theorem C25_decrypt_encrypt : forall a m key iv b a', aes_wf a -> keylen key -> Forall byte_ok key -> st_ok b ->
  aes_init a m (length key) key iv = Some (true, a') -> ecb_decrypt a' (ecb_encrypt a' b) = b /\ ecb_encrypt a' (ecb_decrypt a' b) = b.
Proof.
  intros a m key iv b a' Ha Hl Hk Hb E.
  assert (E4 : (4 * (length key / 4) = length key)%nat) by (destruct Hl as [->|[->| ->]]; reflexivity).
  destruct (init_keyed a m (length key) key iv Ha Hk) as [a1 [H1 [H2 _]]]; [lia|destruct Hl as [->|[->| ->]]; cbn; tauto|].
  rewrite E4, firstn_all in H2. rewrite E in H1. inversion H1; subst a1.
  rewrite !(keyed_enc a' key) by (try rewrite (keyed_dec a' key) by assumption; try apply aes_dec_ok; assumption).
  rewrite !(keyed_dec a' key) by (try apply aes_enc_ok; assumption). split; [apply aes_dec_enc|apply aes_enc_dec]; assumption.
Qed.
Print Assumptions C25_decrypt_encrypt.
Theorem C25_spec_inverse : forall key b, keylen key -> Forall byte_ok key -> st_ok b -> aes_dec key (aes_enc key b) = b /\ aes_enc key (aes_dec key b) = b.
Proof. intros key b H1 H2 H3. split; [apply aes_dec_enc|apply aes_enc_dec]; assumption. Qed.
Print Assumptions C25_spec_inverse.
Example C25_ex : exists a, aes_init aes_new ECB 24 (map Z.of_nat (seq 7 24)) None = Some (true, a) /\ let b := map Z.of_nat (seq 200 16) in
  ecb_encrypt a b <> b /\ ecb_decrypt a (ecb_encrypt a b) = b.
Proof. eexists. split; [vm_compute; reflexivity|]. split; [vm_compute; discriminate|vm_compute; reflexivity]. Qed.

(** ** C26 *)
(** repeated calls of encrypt / decrypt on one object *)
Fixpoint enc_all (bd : build) (a : aes) (ps : list (list Z)) : option (list (list Z) * aes) :=
  match ps with [] => Some ([], a) | p :: t => r <- aes_encrypt bd a p ;; let '(_, c, a1) := r in r2 <- enc_all bd a1 t ;; let '(cs, a2) := r2 in Some (c :: cs, a2) end.
Fixpoint dec_all (bd : build) (a : aes) (cs : list (list Z)) : option (list (list Z) * aes) :=
  match cs with [] => Some ([], a) | c :: t => r <- aes_decrypt bd a c ;; let '(_, p, a1) := r in r2 <- dec_all bd a1 t ;; let '(ps, a2) := r2 in Some (p :: ps, a2) end.

Lemma set_f_keyed a f key : keyed a key -> keyed (set_f a f) key.
Proof. intros [nk [fk [rk H]]]. exists nk, fk, rk. exact H. Qed.
Lemma classify_n m : match classify m with MCFB n | MOFB n | MCTR n => (1 <= n <= 16)%nat | _ => True end.
Proof.
  unfold classify. destruct (Nat.eqb m ECB); [exact I|]. destruct (Nat.eqb m CBC); [exact I|].
  repeat match goal with |- context [if ?x then _ else _] => destruct x eqn:?E end; try exact I;
  rewrite ?orb_true_iff, ?Nat.eqb_eq in *; unfold CFB1, CFB2, CFB4, OFB1, OFB2, OFB4, OFB8, OFB16, CTR1, CTR2, CTR4, CTR8, CTR16 in *; lia.
Qed.
Lemma st_fs n b : st_ok b -> (n <= 16)%nat -> length (firstn n b) = n /\ length (skipn n b) = (16 - n)%nat /\ Forall byte_ok (firstn n b) /\ Forall byte_ok (skipn n b).
Proof.
  intros [L F] Hn. rewrite <- (firstn_skipn n b) in F. apply Forall_app in F. rewrite firstn_length, skipn_length, L. repeat split; try tauto. lia.
Qed.
Lemma xor_prefix_st n b st : (n <= 16)%nat -> st_ok b -> st_ok st -> st_ok (xor_prefix n b st).
Proof.
  intros Hn Hb Hs. destruct (st_fs n b Hb Hn) as [A1 [A2 [A3 A4]]]. destruct (st_fs n st Hs Hn) as [B1 [B2 [B3 B4]]]. split.
  - unfold xor_prefix. rewrite app_length, xorl_length, A1, A2, B1. lia.
  - apply Forall_app. split; [apply xorl_bytes; assumption|assumption].
Qed.
Lemma xor_prefix_first n b st : (n <= 16)%nat -> st_ok b -> st_ok st -> firstn n (xor_prefix n b st) = xorl (firstn n b) (firstn n st).
Proof.
  intros Hn Hb Hs. destruct (st_fs n b Hb Hn) as [A1 [A2 [A3 A4]]]. destruct (st_fs n st Hs Hn) as [B1 [B2 [B3 B4]]].
  unfold xor_prefix. rewrite firstn_app. rewrite xorl_length, A1, B1, Nat.min_id, Nat.sub_diag. cbn [firstn]. rewrite app_nil_r.
  apply firstn_all2. rewrite xorl_length, A1, B1. lia.
Qed.
Lemma xor_prefix_skip n b st : (n <= 16)%nat -> st_ok b -> st_ok st -> skipn n (xor_prefix n b st) = skipn n b.
Proof.
  intros Hn Hb Hs. destruct (st_fs n b Hb Hn) as [A1 [A2 [A3 A4]]]. destruct (st_fs n st Hs Hn) as [B1 [B2 [B3 B4]]].
  unfold xor_prefix. rewrite skipn_app. rewrite xorl_length, A1, B1, Nat.min_id, Nat.sub_diag. cbn [skipn].
  rewrite skipn_all2; [reflexivity|]. rewrite xorl_length, A1, B1. lia.
Qed.
Lemma xor_prefix_invol n b st : (n <= 16)%nat -> st_ok b -> st_ok st -> xor_prefix n (xor_prefix n b st) st = b.
Proof.
  intros Hn Hb Hs. unfold xor_prefix at 1. rewrite xor_prefix_first, xor_prefix_skip by assumption.
  destruct (st_fs n b Hb Hn) as [A1 _]. destruct (st_fs n st Hs Hn) as [B1 _]. rewrite xorl_invol by lia. apply firstn_skipn.
Qed.
Lemma shift_st n f c : (n <= 16)%nat -> st_ok f -> st_ok c -> st_ok (skipn n f ++ firstn n c).
Proof.
  intros Hn Hf Hc. destruct (st_fs n f Hf Hn) as [A1 [A2 [A3 A4]]]. destruct (st_fs n c Hc Hn) as [B1 [B2 [B3 B4]]].
  split; [rewrite app_length; lia|apply Forall_app; auto].
Qed.
Lemma xorl_st a b : st_ok a -> st_ok b -> st_ok (xorl a b).
Proof. apply ark_ok. Qed.
Lemma increment_ok bd f f' : Forall byte_ok f -> increment bd f = Some f' -> f' = le_incr f /\ length f' = length f /\ Forall byte_ok f'.
Proof.
  unfold increment. revert f'. induction f as [|x f IH]; intros f' F E; cbn [increment_from le_incr] in *.
  - inversion E; subst. auto.
  - inversion F as [|? ? Hx Ff]; subst. unfold byte_ok in Hx. destruct bd; cbn [uadd] in E.
    + unfold chku in E. destruct (in_u 8 (x + 1)) eqn:U; cbn [bind] in E; [|discriminate]. apply in_u_spec in U. change (2 ^ 8) with 256 in U.
      destruct (Z.eqb_spec (x + 1) 0); [lia|]. cbn [negb] in E. inversion E; subst. destruct (Z.eqb_spec x 255); [lia|]. split; [reflexivity|]. split; [reflexivity|]. constructor; [unfold byte_ok; lia|assumption].
    + cbn [bind] in E. unfold wrapu in E. change (2 ^ 8) with 256 in E. destruct (Z.eqb_spec x 255) as [->|N].
      * cbn in E. destruct (increment_from Release f) as [t|]; cbn [bind] in E; [|discriminate]. inversion E; subst. destruct (IH t Ff eq_refl) as [E1 [E2 E3]]. subst t.
        split; [reflexivity|]. split; [cbn [length]; congruence|]. constructor; [unfold byte_ok; lia|assumption].
      * rewrite Z.mod_small in E by lia. destruct (Z.eqb_spec (x + 1) 0); [lia|]. cbn [negb] in E. inversion E; subst. split; [reflexivity|]. split; [reflexivity|]. constructor; [unfold byte_ok; lia|assumption].
Qed.
Lemma increment_release f : exists f', increment Release f = Some f'.
Proof.
  unfold increment. induction f as [|x f [t E]]; cbn [increment_from uadd bind]; [eauto|]. destruct (negb _); [eauto|]. rewrite E. cbn [bind]. eauto.
Qed.

(** one call *)
Lemma one_call bd a a' key p x c a1 : keylen key -> Forall byte_ok key -> keyed a key -> keyed a' key -> a_mode a' = a_mode a -> a_f a' = a_f a -> st_ok (a_f a) -> st_ok p ->
  aes_encrypt bd a p = Some (x, c, a1) ->
  st_ok c /\ keyed a1 key /\ a_mode a1 = a_mode a /\ st_ok (a_f a1) /\
  exists a1', aes_decrypt bd a' c = Some (x, p, a1') /\ keyed a1' key /\ a_mode a1' = a_mode a1 /\ a_f a1' = a_f a1.
Proof.
  intros Hl Hk KA KA' Hm Hf Sf Sp. unfold aes_encrypt, aes_decrypt. rewrite Hm, Hf.
  assert (SE : forall b, st_ok b -> st_ok (ecb_encrypt a b)). { intros b Hb. rewrite (keyed_enc a key) by assumption. apply aes_enc_ok; assumption. }
  assert (EE : forall b, st_ok b -> ecb_encrypt a' b = ecb_encrypt a b). { intros b Hb. rewrite (keyed_enc a key), (keyed_enc a' key) by assumption. reflexivity. }
  assert (ED : forall b, st_ok b -> ecb_decrypt a' (ecb_encrypt a b) = b).
  { intros b Hb. rewrite (keyed_enc a key) by assumption. rewrite (keyed_dec a' key) by (try apply aes_enc_ok; assumption). apply aes_dec_enc; assumption. }
  pose proof (classify_n (a_mode a)) as Hn. destruct (classify (a_mode a)) as [| |n|n|n|].
  - intros E. inversion E; subst. split; [apply SE; assumption|]. split; [assumption|]. split; [reflexivity|]. split; [assumption|]. eexists. split; [rewrite ED by assumption; reflexivity|]. auto.
  - intros E. inversion E; subst. assert (Sx : st_ok (xorl p (a_f a))) by (apply xorl_st; assumption). split; [apply SE; assumption|]. split; [apply set_f_keyed; assumption|]. split; [reflexivity|]. split; [apply SE; assumption|].
    eexists. split; [rewrite ED by assumption; rewrite xorl_invol by (destruct Sp as [-> _]; destruct Sf as [-> _]; lia); reflexivity|]. split; [apply set_f_keyed; assumption|]. split; [exact Hm|reflexivity].
  - intros E. inversion E; subst. assert (Sx : st_ok (xor_prefix n p (ecb_encrypt a (a_f a)))) by (apply xor_prefix_st; try assumption; try lia; apply SE; assumption).
    split; [assumption|]. split; [apply set_f_keyed; assumption|]. split; [reflexivity|]. split; [apply shift_st; try assumption; lia|].
    eexists. split; [rewrite EE by assumption; rewrite xor_prefix_invol by (try assumption; try lia; apply SE; assumption); reflexivity|]. split; [apply set_f_keyed; assumption|]. split; [exact Hm|reflexivity].
  - intros E. inversion E; subst. assert (Sx : st_ok (xor_prefix n p (ecb_encrypt a (a_f a)))) by (apply xor_prefix_st; try assumption; try lia; apply SE; assumption).
    split; [assumption|]. split; [apply set_f_keyed; assumption|]. split; [reflexivity|]. split; [apply SE; assumption|].
    eexists. split; [rewrite EE by assumption; rewrite xor_prefix_invol by (try assumption; try lia; apply SE; assumption); reflexivity|]. split; [apply set_f_keyed; assumption|]. split; [exact Hm|reflexivity].
  - destruct (increment bd (a_f a)) as [f|] eqn:EI; cbn [bind]; [|discriminate]. intros E. inversion E; subst. destruct (increment_ok bd (a_f a) f (proj2 Sf) EI) as [_ [I2 I3]].
    assert (Sx : st_ok (xor_prefix n p (ecb_encrypt a (a_f a)))) by (apply xor_prefix_st; try assumption; try lia; apply SE; assumption).
    split; [assumption|]. split; [apply set_f_keyed; assumption|]. split; [reflexivity|]. split; [split; [cbn; rewrite I2; apply Sf|exact I3]|].
    eexists. split; [rewrite EE by assumption; rewrite xor_prefix_invol by (try assumption; try lia; apply SE; assumption); reflexivity|]. split; [apply set_f_keyed; assumption|]. split; [exact Hm|reflexivity].
  - intros E. inversion E; subst. split; [assumption|]. split; [assumption|]. split; [reflexivity|]. split; [assumption|]. eexists. split; [reflexivity|]. auto.
Qed.
Lemma all_calls bd key : keylen key -> Forall byte_ok key -> forall ps a a' cs a1, keyed a key -> keyed a' key -> a_mode a' = a_mode a -> a_f a' = a_f a -> st_ok (a_f a) -> Forall st_ok ps ->
  enc_all bd a ps = Some (cs, a1) -> Forall st_ok cs /\ exists a1', dec_all bd a' cs = Some (ps, a1') /\ a_mode a1' = a_mode a1 /\ a_f a1' = a_f a1.
Proof.
  intros Hl Hk. induction ps as [|p ps IH]; intros a a' cs a1 KA KA' Hm Hf Sf Sp E; cbn [enc_all] in E.
  - inversion E; subst. split; [constructor|]. exists a'. auto.
  - destruct (aes_encrypt bd a p) as [[[x c] b1]|] eqn:E1; cbn [bind] in E; [|discriminate]. inversion Sp as [|? ? Sp1 Sp2]; subst.
    destruct (one_call bd a a' key p x c b1 Hl Hk KA KA' Hm Hf Sf Sp1 E1) as [Sc [K1 [M1 [F1 [b1' [E2 [K2 [M2 F2]]]]]]]].
    destruct (enc_all bd b1 ps) as [[cs2 b2]|] eqn:E3; cbn [bind] in E; [|discriminate]. inversion E; subst.
    destruct (IH b1 b1' cs2 a1 K1 K2 M2 F2 F1 Sp2 E3) as [Sc2 [b2' [E4 [M4 F4]]]]. split; [constructor; assumption|].
    exists b2'. cbn [dec_all]. rewrite E2. cbn [bind]. rewrite E4. cbn [bind]. auto.
Qed.
(** encrypting any sequence of blocks and decrypting the results with a second object initialised the same way
    (each possibly re-used) gives the original blocks back, in every mode, in both build profiles *)
Theorem C26_round_trip : forall bd a a' m key iv ps a1 a1' cs a2, aes_wf a -> aes_wf a' -> keylen key -> Forall byte_ok key -> st_ok iv -> Forall st_ok ps ->
  aes_init a m (length key) key (Some iv) = Some (true, a1) -> aes_init a' m (length key) key (Some iv) = Some (true, a1') ->
  enc_all bd a1 ps = Some (cs, a2) -> exists a2', dec_all bd a1' cs = Some (ps, a2') /\ a_f a2' = a_f a2.
Proof.
  intros bd a a' m key iv ps a1 a1' cs a2 Ha Ha' Hl Hk Siv Sps E1 E2 E3.
  assert (E4 : (4 * (length key / 4) = length key)%nat) by (destruct Hl as [->|[->| ->]]; reflexivity).
  destruct (init_keyed a m (length key) key (Some iv) Ha Hk) as [b [H1 [H2 [H3 [H4 H5]]]]]; [lia|destruct Hl as [->|[->| ->]]; cbn; tauto|].
  destruct (init_keyed a' m (length key) key (Some iv) Ha' Hk) as [b' [H1' [H2' [H3' [H4' H5']]]]]; [lia|destruct Hl as [->|[->| ->]]; cbn; tauto|].
  rewrite E4, firstn_all in H2, H2'. rewrite E1 in H1. rewrite E2 in H1'. inversion H1; inversion H1'; subst b b'.
  assert (Z16 : st_ok (repeat 0 16)). { split; [reflexivity|]. apply Forall_forall. intros x Hx. apply repeat_spec in Hx. subst. apply byte_0. }
  destruct (all_calls bd key Hl Hk ps a1 a1' cs a2 H2 H2' ltac:(congruence) ltac:(congruence)) as [_ [a2' [Q1 [_ Q2]]]]; [rewrite H5; destruct (Nat.eqb m ECB); assumption|exact Sps|exact E3|].
  exists a2'. auto.
Qed.
Print Assumptions C26_round_trip.
(** release builds never fail; debug builds fail only in the CTR modes *)
Theorem C26_total : forall bd ps a, (bd = Release \/ forall n, classify (a_mode a) <> MCTR n) -> exists cs a2, enc_all bd a ps = Some (cs, a2).
Proof.
  intros bd. induction ps as [|p ps IH]; intros a H; cbn [enc_all]; [eauto|].
  assert (Q : exists x c a1, aes_encrypt bd a p = Some (x, c, a1) /\ a_mode a1 = a_mode a).
  { unfold aes_encrypt. destruct (classify (a_mode a)) as [| |n|n|n|] eqn:E; try (do 3 eexists; split; [reflexivity|reflexivity]).
    destruct H as [->|H]; [|exfalso; apply (H n); reflexivity]. destruct (increment_release (a_f a)) as [f ->]. cbn [bind]. do 3 eexists. split; reflexivity. }
  destruct Q as [x [c [a1 [E M]]]]. rewrite E. cbn [bind]. destruct (IH a1) as [cs [a2 E2]]; [rewrite M; exact H|]. rewrite E2. cbn [bind]. eauto.
Qed.
Print Assumptions C26_total.
(** what the modes compute: SP 800-38A over E = AES with the key; only the first n bytes of a block are processed in the
    n-byte modes.  CTR uses a little-endian counter starting at byte 0 (not the big-endian one of SP 800-38A F.5). *)
Theorem C26_modes : forall bd key ps a cs a2, keylen key -> Forall byte_ok key -> keyed a key -> st_ok (a_f a) -> Forall st_ok ps -> enc_all bd a ps = Some (cs, a2) ->
  let E := aes_enc key in
  match classify (a_mode a) with
  | MECB => cs = map E ps
  | MCBC => cs = cbc_enc E (a_f a) ps
  | MCFB n => map (firstn n) cs = cfb_enc E n (a_f a) (map (firstn n) ps) /\ map (skipn n) cs = map (skipn n) ps
  | MOFB n => map (firstn n) cs = ofb E n (a_f a) (map (firstn n) ps) /\ map (skipn n) cs = map (skipn n) ps
  | MCTR n => map (firstn n) cs = ctr E le_incr n (a_f a) (map (firstn n) ps) /\ map (skipn n) cs = map (skipn n) ps
  | MNONE => cs = ps
  end.
Proof.
  intros bd key. induction ps as [|p ps IH]; intros a cs a2 Hl Hk KA Sf Sp E0; cbn [enc_all] in E0; cbv zeta.
  - inversion E0; subst. destruct (classify (a_mode a2)); cbn; auto.
  - destruct (aes_encrypt bd a p) as [[[x c] b1]|] eqn:E1; cbn [bind] in E0; [|discriminate]. inversion Sp as [|? ? Sp1 Sp2]; subst.
    destruct (one_call bd a a key p x c b1 Hl Hk KA KA eq_refl eq_refl Sf Sp1 E1) as [Sc [K1 [M1 [F1 _]]]].
    destruct (enc_all bd b1 ps) as [[cs2 b2]|] eqn:E3; cbn [bind] in E0; [|discriminate]. inversion E0; subst.
    specialize (IH b1 cs2 a2 Hl Hk K1 F1 Sp2 E3). cbv zeta in IH. rewrite M1 in IH. unfold aes_encrypt in E1.
    pose proof (classify_n (a_mode a)) as Hn.
    assert (SE : forall b, st_ok b -> st_ok (aes_enc key b)) by (intros; apply aes_enc_ok; assumption).
    destruct (classify (a_mode a)) as [| |n|n|n|]; cbn [map cbc_enc cfb_enc ofb ctr].
    + injection E1 as <- <- <-. rewrite (keyed_enc a key) by assumption. rewrite IH. reflexivity.
    + injection E1 as <- <- <-. cbn [set_f a_f] in *. rewrite (keyed_enc a key) in IH |- * by (try apply xorl_st; assumption). rewrite IH. reflexivity.
    + injection E1 as <- <- <-. cbn [set_f a_f] in *. pose proof (keyed_enc a key (a_f a) KA Sf) as EQ. try rewrite EQ in IH. rewrite EQ. clear EQ. destruct IH as [IH1 IH2].
      try rewrite xor_prefix_first in IH1 by (try lia; try assumption; apply SE; assumption). rewrite xor_prefix_first by (try lia; try assumption; apply SE; assumption). rewrite xor_prefix_skip by (try lia; try assumption; apply SE; assumption). rewrite IH1, IH2. auto.
    + injection E1 as <- <- <-. cbn [set_f a_f] in *. pose proof (keyed_enc a key (a_f a) KA Sf) as EQ. try rewrite EQ in IH. rewrite EQ. clear EQ. destruct IH as [IH1 IH2].
      try rewrite xor_prefix_first in IH1 by (try lia; try assumption; apply SE; assumption). rewrite xor_prefix_first by (try lia; try assumption; apply SE; assumption). rewrite xor_prefix_skip by (try lia; try assumption; apply SE; assumption). rewrite IH1, IH2. auto.
    + destruct (increment bd (a_f a)) as [f|] eqn:EI; cbn [bind] in E1; [|discriminate]. injection E1 as <- <- <-. destruct (increment_ok bd (a_f a) f (proj2 Sf) EI) as [I1 _].
      cbn [set_f a_f] in *. pose proof (keyed_enc a key (a_f a) KA Sf) as EQ. try rewrite EQ in IH. rewrite EQ. clear EQ. destruct IH as [IH1 IH2].
      try rewrite xor_prefix_first in IH1 by (try lia; try assumption; apply SE; assumption). rewrite xor_prefix_first by (try lia; try assumption; apply SE; assumption). rewrite xor_prefix_skip by (try lia; try assumption; apply SE; assumption). rewrite IH1, IH2, I1. auto.
    + injection E1 as <- <- <-. rewrite IH. reflexivity.
Qed.
Print Assumptions C26_modes.
(** init accepts any mode number; one that is not a supported mode leaves the data in clear *)
Theorem C26_unknown_mode_refuted : forall bd a p, ~ In (a_mode a) [0; 1; 2; 3; 5; 14; 15; 17; 21; 29; 30; 31; 33; 37; 45]%nat -> aes_encrypt bd a p = Some (0, p, a).
Proof.
  intros bd a p H. unfold aes_encrypt. replace (classify (a_mode a)) with MNONE; [reflexivity|]. unfold classify, ECB, CBC, CFB1, CFB2, CFB4, OFB1, OFB2, OFB4, OFB8, OFB16, CTR1, CTR2, CTR4, CTR8, CTR16.
  cbn [In] in H. repeat match goal with |- context [Nat.eqb (a_mode a) ?k] => destruct (Nat.eqb_spec (a_mode a) k) as [E|_]; [exfalso; apply H; rewrite E; tauto|] end. reflexivity.
Qed.
Print Assumptions C26_unknown_mode_refuted.
(** a debug build panics in CTR mode as soon as byte 0 of the counter is 255 *)
Theorem C26_ctr_debug_refuted : forall a p n x f, classify (a_mode a) = MCTR n -> a_f a = x :: f -> x = 255 -> aes_encrypt Debug a p = None.
Proof. intros a p n x f Hc Hf ->. unfold aes_encrypt. rewrite Hc, Hf. reflexivity. Qed.
Print Assumptions C26_ctr_debug_refuted.
Example C26_ex : exists a cs a2, aes_init aes_new CFB4 16 (map Z.of_nat (seq 3 16)) (Some (map Z.of_nat (seq 240 16))) = Some (true, a)
  /\ enc_all Debug a [map Z.of_nat (seq 0 16); map Z.of_nat (seq 16 16); map Z.of_nat (seq 32 16)] = Some (cs, a2) /\ nth 2 cs [] <> map Z.of_nat (seq 32 16)
  /\ exists a3, dec_all Debug a cs = Some ([map Z.of_nat (seq 0 16); map Z.of_nat (seq 16 16); map Z.of_nat (seq 32 16)], a3).
Proof. do 3 eexists. split; [vm_compute; reflexivity|]. split; [vm_compute; reflexivity|]. split; [vm_compute; discriminate|]. eexists. vm_compute. reflexivity. Qed.
