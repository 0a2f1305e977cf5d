(** Padded AES-CBC of the ECDH module. *)
From Verif Require Import Base.Word Base.Arr Model.Aes Model.Ecdh Spec.Bytes Spec.AesSpec Spec.GcmSpec Spec.KdfSpec Proof.AesBase Proof.AesBlock Proof.AesCipher Proof.GcmBase Proof.EcdhSym.

Lemma nth_skipn (l : list Z) : forall n j d, nth j (skipn n l) d = nth (n + j) l d.
Proof. induction l as [|x l IH]; intros [|n] j d; cbn [skipn Nat.add]; try reflexivity; [destruct j; reflexivity|]. apply IH. Qed.
Lemma set_f_keyed' a f key : keyed a key -> keyed (set_f a f) key.
Proof. intros [nk [fk [rk H]]]. exists nk, fk, rk. exact H. Qed.
Lemma chunks16_cons l : l <> [] -> chunks 16 l = firstn 16 l :: chunks 16 (skipn 16 l).
Proof. intros H. apply chunks_cons; [lia|exact H]. Qed.
Lemma pkcs7_skip m : (16 <= length m)%nat -> pkcs7 m = firstn 16 m ++ pkcs7 (skipn 16 m).
Proof.
  intros H. unfold pkcs7. rewrite skipn_length.
  assert (E : ((length m - 16) mod 16 = length m mod 16)%nat).
  { replace (length m) with (length m - 16 + 1 * 16)%nat at 2 by lia. rewrite Nat.mod_add by lia. reflexivity. }
  rewrite E, app_assoc, firstn_skipn. reflexivity.
Qed.
Lemma pkcs7_short m : (length m < 16)%nat -> pkcs7 m = m ++ repeat (Z.of_nat (16 - length m)) (16 - length m) /\ length (pkcs7 m) = 16%nat.
Proof. intros H. unfold pkcs7. rewrite Nat.mod_small by lia. split; [reflexivity|]. rewrite app_length, repeat_length. lia. Qed.
Lemma pkcs7_padded m : padded_form m (pkcs7 m).
Proof. exists (16 - length m mod 16)%nat. pose proof (Nat.mod_upper_bound (length m) 16 ltac:(lia)). split; [lia|reflexivity]. Qed.
Lemma pkcs7_length m : (length (pkcs7 m) mod 16 = 0)%nat /\ (16 <= length (pkcs7 m))%nat.
Proof.
  unfold pkcs7. rewrite app_length, repeat_length. pose proof (Nat.mod_upper_bound (length m) 16 ltac:(lia)). pose proof (Nat.div_mod (length m) 16 ltac:(lia)) as D.
  split; [|lia]. replace (length m + (16 - length m mod 16))%nat with (0 + (length m / 16 + 1) * 16)%nat by lia. rewrite Nat.mod_add by lia. reflexivity.
Qed.
Lemma pkcs7_bytes m : Forall byte_ok m -> Forall byte_ok (pkcs7 m).
Proof.
  intros H. apply Forall_app. split; [exact H|]. apply Forall_forall. intros x Hx. apply repeat_spec in Hx. subst. unfold byte_ok.
  pose proof (Nat.mod_upper_bound (length m) 16 ltac:(lia)). lia.
Qed.
Lemma first16_st l : (16 <= length l)%nat -> Forall byte_ok l -> st_ok (firstn 16 l).
Proof. intros L H. split; [rewrite firstn_length; lia|]. apply (proj1 (Forall_fs _ 16 l H)). Qed.
Lemma zero_st : st_ok (repeat 0 16).
Proof. split; [reflexivity|apply zeros_ok]. Qed.

Section Cbc.
Variables (bd : build) (key : list Z).
Hypotheses (KL : keylen key) (KB : Forall byte_ok key).
Notation E := (aes_enc key).
Notation D := (aes_dec key).

Lemma enc_step a p : keyed a key -> a_mode a = CBC -> st_ok (a_f a) -> st_ok p ->
  aes_encrypt bd a p = Some (0, E (xorl p (a_f a)), set_f a (E (xorl p (a_f a)))).
Proof. intros K M F Hp. unfold aes_encrypt. rewrite M. change (classify CBC) with MCBC. cbv iota. rewrite (keyed_enc a key) by (try assumption; apply ark_ok; assumption). reflexivity. Qed.
Lemma dec_step a c : keyed a key -> a_mode a = CBC -> st_ok c ->
  aes_decrypt bd a c = Some (0, xorl (D c) (a_f a), set_f a c).
Proof. intros K M Hc. unfold aes_decrypt. rewrite M. change (classify CBC) with MCBC. cbv iota. rewrite (keyed_dec a key) by assumption. reflexivity. Qed.

Lemma cbc_enc_loop_ok : forall fuel m a, (length m < fuel)%nat -> Forall byte_ok m -> keyed a key -> a_mode a = CBC -> st_ok (a_f a) ->
  cbc_enc_loop fuel bd a m = Some (concat (cbc_enc E (a_f a) (chunks 16 (pkcs7 m)))).
Proof.
  induction fuel as [|fuel IH]; intros m a L H K M F; [lia|]. cbn [cbc_enc_loop]. destruct (Nat.leb_spec 16 (length m)).
  - pose proof (first16_st m H0 H) as Hf. rewrite enc_step by assumption. cbn [bind]. set (c := E (xorl (firstn 16 m) (a_f a))).
    assert (Hc : st_ok c) by (apply aes_enc_ok; try assumption; apply ark_ok; assumption).
    rewrite IH; [|rewrite skipn_length; lia|apply (proj2 (Forall_fs _ 16 m H))|apply set_f_keyed'; exact K|exact M|exact Hc].
    cbn [bind a_f set_f]. rewrite (pkcs7_skip m H0). rewrite (chunks16_cons (firstn 16 m ++ _)) by (intros Q; apply app_eq_nil in Q; destruct Q as [Q _]; apply (f_equal (@length Z)) in Q; rewrite firstn_length in Q; cbn [length] in Q; lia).
    assert (LF : length (firstn 16 m) = 16%nat) by (rewrite firstn_length; lia).
    pose proof (firstn_app_exact (firstn 16 m) (pkcs7 (skipn 16 m))) as FE. pose proof (skipn_app_exact (firstn 16 m) (pkcs7 (skipn 16 m))) as SE. rewrite LF in FE, SE. rewrite FE, SE.
    cbn [cbc_enc concat]. reflexivity.
  - destruct (pkcs7_short m H0) as [EP LP]. rewrite <- EP. pose proof (pkcs7_bytes m H) as PB. rewrite enc_step by (try assumption; split; assumption). cbn [bind].
    rewrite chunks16_cons by (intros Q; rewrite Q in LP; discriminate). rewrite firstn_all2 by lia. rewrite skipn_all2 by lia. cbn [chunks chunks_fuel length cbc_enc concat]. rewrite app_nil_r. reflexivity.
Qed.

Lemma cbc_dec_loop_ok : forall fuel c a buff, (length c < fuel)%nat -> c <> [] -> Forall byte_ok c -> keyed a key -> a_mode a = CBC -> st_ok (a_f a) -> st_ok buff ->
  exists m b i, cbc_dec_loop fuel bd a buff c = Some (m, b, i) /\ st_ok b /\
    ((length c mod 16 = 0)%nat -> i = 15%nat /\ m ++ b = concat (cbc_dec D (a_f a) (chunks 16 c))) /\ ((length c mod 16 <> 0)%nat -> i <> 15%nat).
Proof.
  induction fuel as [|fuel IH]; intros c a buff L NE H K M F Hb; [lia|]. cbn [cbc_dec_loop]. destruct (Nat.leb_spec (length c) 16) as [S16|S16].
  - assert (Hc : st_ok (c ++ skipn (length c) buff)).
    { destruct Hb as [LB FB]. split; [rewrite app_length, skipn_length; lia|]. apply Forall_app. split; [exact H|apply (proj2 (Forall_fs _ (length c) buff FB))]. }
    rewrite dec_step by assumption. cbn [bind]. do 3 eexists. split; [reflexivity|]. split; [apply ark_ok; [apply aes_dec_ok; assumption|exact F]|].
    assert (LC : (length c <> 0)%nat) by (destruct c; [contradiction|discriminate]). split.
    + intros M0. assert (length c = 16)%nat by (destruct (Nat.eq_dec (length c) 16); [assumption|rewrite Nat.mod_small in M0 by lia; lia]). split; [lia|].
      rewrite chunks16_cons by exact NE. rewrite firstn_all2 by lia. rewrite (skipn_all2 c) by lia. destruct Hb as [LB _]. rewrite skipn_all2 by lia. rewrite app_nil_r.
      cbn [chunks chunks_fuel length cbc_dec concat app]. rewrite app_nil_r. reflexivity.
    + intros M0. assert (length c <> 16)%nat by (intros Q; rewrite Q in M0; apply M0; reflexivity). lia.
  - pose proof (first16_st c ltac:(lia) H) as Hf. rewrite dec_step by assumption. cbn [bind]. set (b0 := xorl (D (firstn 16 c)) (a_f a)).
    assert (Hb0 : st_ok b0) by (apply ark_ok; [apply aes_dec_ok; assumption|exact F]).
    destruct (IH (skipn 16 c) (set_f a (firstn 16 c)) b0) as [m [b [i [E1 [Sb [G1 G2]]]]]].
    + rewrite skipn_length. lia.
    + intros Q. apply (f_equal (@length Z)) in Q. rewrite skipn_length in Q. cbn [length] in Q. lia.
    + apply (proj2 (Forall_fs _ 16 c H)).
    + apply set_f_keyed'. exact K.
    + exact M.
    + exact Hf.
    + exact Hb0.
    + rewrite E1. cbn [bind]. exists (b0 ++ m), b, i. split; [reflexivity|]. split; [exact Sb|].
      assert (EM : (length (skipn 16 c) mod 16 = length c mod 16)%nat).
      { rewrite skipn_length. replace (length c) with (length c - 16 + 1 * 16)%nat at 2 by lia. rewrite Nat.mod_add by lia. reflexivity. }
      rewrite EM in G1, G2. split; [|exact G2]. intros M0. destruct (G1 M0) as [I15 EQ]. split; [exact I15|].
      rewrite chunks16_cons by exact NE. cbn [cbc_dec concat]. rewrite <- app_assoc, EQ. reflexivity.
Qed.

(** the specification level: CBC decryption inverts CBC encryption *)
Lemma cbc_len : forall n x iv, (length x <= n)%nat -> (length x mod 16 = 0)%nat -> Forall byte_ok x -> st_ok iv ->
  let c := concat (cbc_enc E iv (chunks 16 x)) in length c = length x /\ Forall byte_ok c /\ concat (cbc_dec D iv (chunks 16 c)) = x.
Proof.
  induction n as [|n IH]; intros x iv L M H Hiv.
  - destruct x; [|cbn in L; lia]. repeat split; constructor.
  - destruct (list_eq_dec Z.eq_dec x []) as [->|NE]; [repeat split; constructor|].
    assert (L16 : (16 <= length x)%nat) by (destruct (Nat.le_gt_cases 16 (length x)); [assumption|rewrite Nat.mod_small in M by lia; destruct x; [contradiction|discriminate]]).
    assert (Hx : st_ok (xorl (firstn 16 x) iv)) by (apply ark_ok; [apply first16_st; assumption|exact Hiv]).
    assert (Hc0 : st_ok (E (xorl (firstn 16 x) iv))) by (apply aes_enc_ok; assumption).
    rewrite (chunks16_cons x NE). cbn [cbc_enc concat]. set (c0 := E (xorl (firstn 16 x) iv)) in *.
    specialize (IH (skipn 16 x) c0). rewrite skipn_length in IH. specialize (IH ltac:(lia)).
    assert (M2 : ((length x - 16) mod 16 = 0)%nat). { replace (length x) with (length x - 16 + 1 * 16)%nat in M by lia. rewrite Nat.mod_add in M by lia. exact M. }
    specialize (IH M2 (proj2 (Forall_fs _ 16 x H)) Hc0). cbv zeta in IH. destruct IH as [I1 [I2 I3]]. set (c' := concat (cbc_enc E c0 (chunks 16 (skipn 16 x)))) in *.
    destruct Hc0 as [Lc0 Bc0]. split; [rewrite app_length; lia|]. split; [apply Forall_app; split; assumption|].
    rewrite (chunks16_cons (c0 ++ _)) by (intros Q; apply app_eq_nil in Q; destruct Q as [Q _]; rewrite Q in Lc0; discriminate).
    rewrite <- Lc0. rewrite firstn_app_exact, skipn_app_exact. rewrite Lc0. cbn [cbc_dec concat]. rewrite I3.
    assert (ED : D c0 = xorl (firstn 16 x) iv) by (unfold c0; apply aes_dec_enc; assumption).
    rewrite ED, xorl_invol by (destruct Hiv as [LI _]; rewrite firstn_length; lia). apply firstn_skipn.
Qed.
Lemma CBC0_inverse x : (length x mod 16 = 0)%nat -> Forall byte_ok x ->
  length (CBC0_enc key x) = length x /\ Forall byte_ok (CBC0_enc key x) /\ CBC0_dec key (CBC0_enc key x) = x.
Proof. intros M H. exact (cbc_len (length x) x (repeat 0 16) (le_n _) M H zero_st). Qed.
End Cbc.

(** the padding test *)
Definition pad_bad (b : list Z) : bool :=
  let padlen := at_ b 15 in
  let bad := (padlen <? 1) || (16 <? padlen) in
  if (2 <=? padlen) && (padlen <=? 16) then bad || existsb (fun j => negb (at_ b j =? padlen)) (seq (16 - Z.to_nat padlen) (Z.to_nat padlen)) else bad.
Lemma nth_repeat_in (a d : Z) : forall n j, (j < n)%nat -> nth j (repeat a n) d = a.
Proof. induction n as [|n IH]; intros j H; [lia|]. destruct j as [|j]; cbn [repeat nth]; [reflexivity|]. apply IH. lia. Qed.
Lemma at_app_r (m b : list Z) j : at_ (m ++ b) (length m + j) = at_ b j.
Proof. unfold at_. rewrite app_nth2_plus. reflexivity. Qed.
Lemma pad_bad_ok m b r : st_ok b ->
  (if pad_bad b then None else Some (m ++ firstn (16 - Z.to_nat (at_ b 15)) b)) = Some r <-> padded_form r (m ++ b).
Proof.
  intros [LB FB]. set (p := at_ b 15).
  assert (P0 : 0 <= p) by (unfold p, at_; apply (Forall_nth_ok (fun x => 0 <= x)); [|lia]; eapply Forall_impl; [|exact FB]; intros x Hx; apply Hx).
  assert (TEST : pad_bad b = false <-> (1 <= p <= 16 /\ forall j, (16 - Z.to_nat p <= j < 16)%nat -> at_ b j = p)).
  { unfold pad_bad. fold p. destruct (Z.ltb_spec p 1); [|destruct (Z.ltb_spec 16 p)]; cbn [orb].
    - split; [|lia]. destruct ((2 <=? p) && (p <=? 16)); discriminate.
    - split; [|lia]. destruct ((2 <=? p) && (p <=? 16)); discriminate.
    - destruct (Z.leb_spec p 16); [|lia]. rewrite andb_true_r. destruct (Z.leb_spec 2 p).
      + split.
        * intros EX. split; [lia|]. intros j Hj. destruct (Z.eqb_spec (at_ b j) p) as [|NQ]; [assumption|exfalso].
          assert (existsb (fun j => negb (at_ b j =? p)) (seq (16 - Z.to_nat p) (Z.to_nat p)) = true).
          { apply existsb_exists. exists j. split; [apply in_seq; lia|]. apply negb_true_iff. apply Z.eqb_neq. exact NQ. }
          congruence.
        * intros [_ G]. destruct (existsb _ _) eqn:EX; [|reflexivity]. apply existsb_exists in EX. destruct EX as [j [Hj Q]]. apply in_seq in Hj.
          rewrite G in Q by lia. rewrite Z.eqb_refl in Q. discriminate.
      + split; [|reflexivity]. intros _. split; [lia|]. intros j Hj. assert (j = 15)%nat by lia. subst. reflexivity. }
  split.
  - destruct (pad_bad b) eqn:PB; [discriminate|]. intros Q. inversion Q; subst r. destruct (proj1 TEST eq_refl) as [R G].
    exists (Z.to_nat p). split; [lia|]. rewrite <- app_assoc. f_equal. rewrite <- (firstn_skipn (16 - Z.to_nat p) b) at 1. f_equal. rewrite Z2Nat.id by lia.
    apply (nth_ext _ _ 0 0); [rewrite skipn_length, repeat_length; lia|]. intros j Hj. rewrite skipn_length in Hj. rewrite nth_repeat_in by lia. rewrite nth_skipn. apply G. lia.
  - intros [n [Rn EQ]].
    assert (LEN : (length m + 16 = length r + n)%nat) by (apply (f_equal (@length Z)) in EQ; rewrite !app_length, repeat_length in EQ; lia).
    assert (AT : forall j, (16 - n <= j < 16)%nat -> at_ b j = Z.of_nat n).
    { intros j Hj. rewrite <- (at_app_r m b j), EQ. unfold at_. rewrite app_nth2 by lia. apply nth_repeat_in. lia. }
    assert (PN : p = Z.of_nat n) by (apply AT; lia).
    assert (PB : pad_bad b = false) by (apply TEST; split; [lia|]; intros j Hj; rewrite PN; apply AT; lia).
    rewrite PB, PN, Nat2Z.id. f_equal. apply (f_equal (firstn (length r))) in EQ. rewrite firstn_app_exact in EQ. rewrite <- EQ, firstn_app.
    rewrite (firstn_all2 m) by lia. do 2 f_equal. lia.
Qed.

Section Top.
Variables (bd : build) (k : list Z).
Hypothesis KN : In (length k / 4)%nat [4%nat; 6%nat; 8%nat].
Hypothesis KB : Forall byte_ok k.
Definition eff_key (k : list Z) : list Z := firstn (4 * (length k / 4)) k.
Lemma key_ready : exists a, aes_init aes_new CBC (length k) k None = Some (true, a) /\ keyed a (eff_key k) /\ a_mode a = CBC /\ a_f a = repeat 0 16.
Proof.
  destruct (init_keyed aes_new CBC (length k) k None) as [a [E [K [M [_ F]]]]].
  - split; reflexivity.
  - exact KB.
  - apply Nat.mul_div_le. lia.
  - destruct KN as [Q|[Q|[Q|[]]]]; rewrite <- Q; auto.
  - exists a. repeat split; assumption.
Qed.
Lemma eff_key_ok : keylen (eff_key k) /\ Forall byte_ok (eff_key k).
Proof.
  split; [|apply (proj1 (Forall_fs _ _ k KB))]. unfold keylen, eff_key. rewrite firstn_length.
  pose proof (Nat.mul_div_le (length k) 4 ltac:(lia)). rewrite Nat.min_l by lia. destruct KN as [Q|[Q|[Q|[]]]]; rewrite <- Q; cbn; auto.
Qed.
Lemma cbc_encrypt_ok m : Forall byte_ok m -> cbc_iv0_encrypt bd k m = Some (CBC0_enc (eff_key k) (pkcs7 m)).
Proof.
  intros H. destruct key_ready as [a [E [K [M F]]]]. destruct eff_key_ok as [KL KB']. unfold cbc_iv0_encrypt. rewrite E. cbn [bind snd].
  rewrite (cbc_enc_loop_ok bd (eff_key k)); try assumption; [rewrite F; reflexivity|lia|rewrite F; apply zero_st].
Qed.
Lemma cbc_decrypt_ok c : Forall byte_ok c -> exists r, cbc_iv0_decrypt bd k c = Some r /\
  forall m, r = Some m <-> (c <> [] /\ (length c mod 16 = 0)%nat /\ padded_form m (CBC0_dec (eff_key k) c)).
Proof.
  intros H. destruct key_ready as [a [E [K [M F]]]]. destruct eff_key_ok as [KL KB']. unfold cbc_iv0_decrypt. rewrite E. cbn [bind snd].
  destruct (Nat.eqb_spec (length c) 0) as [Z0|NZ].
  - exists None. split; [reflexivity|]. intros m. split; [discriminate|]. intros [NE _]. destruct c; [contradiction|discriminate].
  - assert (NE : c <> []) by (intros ->; apply NZ; reflexivity).
    destruct (cbc_dec_loop_ok bd (eff_key k) KL KB' (S (length c)) c a (repeat 0 16)) as [m0 [b [i [E1 [Sb [G1 G2]]]]]]; try assumption; [lia|rewrite F; apply zero_st|apply zero_st|].
    rewrite E1. cbn [bind]. destruct (Nat.eq_dec (length c mod 16) 0) as [M0|M0].
    + destruct (G1 M0) as [-> EQ]. cbn [Nat.eqb negb orb]. fold (pad_bad b). rewrite F in EQ. fold (CBC0_dec (eff_key k) c) in EQ.
      exists (if pad_bad b then None else Some (m0 ++ firstn (16 - Z.to_nat (at_ b 15)) b)). split; [destruct (pad_bad b); reflexivity|].
      intros m. rewrite (pad_bad_ok m0 b m Sb), EQ. tauto.
    + specialize (G2 M0). destruct (Nat.eqb_spec i 15); [contradiction|]. cbn [negb orb]. exists None. split; [|intros m; split; [discriminate|tauto]].
      destruct ((2 <=? at_ b 15) && (at_ b 15 <=? 16)); reflexivity.
Qed.
End Top.
