(** ecb_encrypt / ecb_decrypt are the FIPS-197 cipher and inverse cipher; they invert each other. *)
From Verif Require Import Base.Word Base.Arr Model.AesTables Model.Aes Spec.AesSpec Proof.AesBase Proof.AesBlock Proof.AesKey.

Section Cipher.
Variable nk : nat.
Variable key : list Z.
Hypothesis Hnk : nk = 4%nat \/ nk = 6%nat \/ nk = 8%nat.
Hypothesis Hlen : length key = (4 * nk)%nat.
Hypothesis Hkey : Forall byte_ok key.
Let nr := (6 + nk)%nat.
Let n := (4 * (nr + 1))%nat.
Notation ws := (key_words nk key n).

Lemma rk_ok r : (r <= nr)%nat -> st_ok (round_key ws r).
Proof.
  intros Hr. unfold round_key.
  destruct (kw_nth nk key Hnk Hlen Hkey n (4 * r) ltac:(subst n nr; lia)) as [L0 F0]. destruct (kw_nth nk key Hnk Hlen Hkey n (4 * r + 1) ltac:(subst n nr; lia)) as [L1 F1].
  destruct (kw_nth nk key Hnk Hlen Hkey n (4 * r + 2) ltac:(subst n nr; lia)) as [L2 F2]. destruct (kw_nth nk key Hnk Hlen Hkey n (4 * r + 3) ltac:(subst n nr; lia)) as [L3 F3].
  split; [rewrite !app_length, L0, L1, L2, L3; reflexivity|]. repeat (apply Forall_app; split; [assumption|]). assumption.
Qed.
Lemma words_app a b c d : w_ok a -> w_ok b -> w_ok c -> w_ok d -> words (a ++ b ++ c ++ d) = (pkw a, pkw b, pkw c, pkw d).
Proof. intros [La _] [Lb _] [Lc _] [Ld _]. explode a La. explode b Lb. explode c Lc. explode d Ld. reflexivity. Qed.
Lemma words_rk r : (r <= nr)%nat -> words (round_key ws r) = (pkw (nth (4 * r) ws []), pkw (nth (4 * r + 1) ws []), pkw (nth (4 * r + 2) ws []), pkw (nth (4 * r + 3) ws [])).
Proof. intros Hr. apply words_app; apply (kw_nth nk key Hnk Hlen Hkey); subst n nr; lia. Qed.
Lemma fkey_rk fkey r : inv nk key fkey n -> (r <= nr)%nat -> rk_at fkey (4 * r) (round_key ws r).
Proof. intros [_ HI] Hr. unfold rk_at. rewrite words_rk by exact Hr. rewrite !HI by (subst n nr; lia). reflexivity. Qed.

Lemma load_words buff fkey rk : st_ok buff -> st_ok rk -> rk_at fkey 0 rk -> load_block buff fkey = words (add_round_key buff rk).
Proof.
  start buff rk. intros HR. unfold rk_at in HR. rewrite words_pack in HR. injection HR as E0 E1 E2 E3. cbn [Nat.add] in *.
  unfold load_block. rewrite E0, E1, E2, E3. norm_state. rewrite !pack_pk by assumption. rewrite !lxor_pk by assumption. reflexivity.
Qed.
Lemma store_words s : st_ok s -> store_block (words s) = s.
Proof. intros [L F]. explode s L. inv_forall. rewrite words_pack. unfold store_block. rewrite !unpack_pk by assumption. reflexivity. Qed.

Definition fround (ws : list (list Z)) (s : list Z) (r : nat) : list Z := add_round_key (mix_columns (shift_rows (sub_bytes s))) (round_key ws r).
Definition iround (ws : list (list Z)) (s : list Z) (r : nat) : list Z := inv_mix_columns (add_round_key (inv_sub_bytes (inv_shift_rows s)) (round_key ws r)).
Lemma fround_ok s r : (r <= nr)%nat -> st_ok s -> st_ok (fround ws s r).
Proof. intros Hr H. apply ark_ok; [apply mix_ok, shift_ok, sub_ok; exact H|apply rk_ok; exact Hr]. Qed.
Lemma frounds_ok cnt : forall r s, (r + cnt <= nr + 1)%nat -> st_ok s -> st_ok (fold_left (fround ws) (seq r cnt) s).
Proof. induction cnt as [|c IH]; intros r s Hr H; cbn [seq fold_left]; [exact H|]. apply IH; [lia|]. apply fround_ok; [lia|exact H]. Qed.
Lemma enc_rounds_ok fkey : inv nk key fkey n -> forall cnt r s, (r + cnt <= nr)%nat -> st_ok s ->
  enc_rounds cnt fkey (4 * r) (words s) = ((4 * (r + cnt))%nat, words (fold_left (fround ws) (seq r cnt) s)).
Proof.
  intros HI. induction cnt as [|c IH]; intros r s Hr H; cbn [enc_rounds seq fold_left].
  - rewrite Nat.add_0_r. reflexivity.
  - rewrite (enc_round_F fkey (4 * r) s (round_key ws r)) by (try apply rk_ok; try apply fkey_rk; try assumption; lia).
    replace (4 * r + 4)%nat with (4 * S r)%nat by lia. change (add_round_key _ _) with (fround ws s r). rewrite IH by (try apply fround_ok; try assumption; lia).
    replace (S r + c)%nat with (r + S c)%nat by lia. reflexivity.
Qed.
Lemma cipher_ok s : st_ok s -> st_ok (cipher nr ws s).
Proof.
  intros H. unfold cipher. apply ark_ok; [|apply rk_ok; lia]. apply shift_ok, sub_ok. apply (frounds_ok (nr - 1)); [lia|]. apply ark_ok; [exact H|apply rk_ok; lia].
Qed.
Theorem ecb_encrypt_spec a buff : a_nr a = nr -> inv nk key (a_fkey a) n -> st_ok buff -> ecb_encrypt a buff = cipher nr ws buff.
Proof.
  intros En HI Hb. unfold ecb_encrypt. rewrite En. rewrite (load_words buff (a_fkey a) (round_key ws 0)) by (try apply rk_ok; try apply (fkey_rk (a_fkey a) 0); try assumption; lia).
  assert (H0 : st_ok (add_round_key buff (round_key ws 0))) by (apply ark_ok; [exact Hb|apply rk_ok; lia]).
  change 4%nat with (4 * 1)%nat at 1. rewrite (enc_rounds_ok (a_fkey a) HI (nr - 1) 1) by (try assumption; unfold nr; lia).
  set (s := fold_left (fround ws) (seq 1 (nr - 1)) (add_round_key buff (round_key ws 0))).
  assert (Hs : st_ok s) by (apply frounds_ok; [lia|exact H0]).
  replace (4 * (1 + (nr - 1)))%nat with (4 * nr)%nat by (unfold nr; lia).
  rewrite (enc_round_FB (a_fkey a) (4 * nr) s (round_key ws nr)) by (try apply rk_ok; try apply fkey_rk; try assumption; lia).
  rewrite store_words by (apply ark_ok; [apply shift_ok, sub_ok; exact Hs|apply rk_ok; lia]). reflexivity.
Qed.

(** ** decryption keys *)
Lemma set4_length dst k v : length (set4 dst k v) = length dst.
Proof. unfold set4. rewrite !aset_length. reflexivity. Qed.
Lemma set4_at dst q v r c : (4 * q + 3 < length dst)%nat -> (c < 4)%nat -> at_ (set4 dst (4 * q) v) (4 * r + c) = if Nat.eqb r q then v c else at_ dst (4 * r + c).
Proof.
  intros HL Hc. unfold set4, at_. destruct (Nat.eqb_spec r q) as [->|N].
  - destruct c as [|[|[|[|c]]]]; [| | | |lia].
    + rewrite Nat.add_0_r. rewrite 3 nth_aset_neq by lia. apply nth_aset_eq. lia.
    + rewrite 2 nth_aset_neq by lia. apply nth_aset_eq. rewrite aset_length. lia.
    + rewrite 1 nth_aset_neq by lia. apply nth_aset_eq. rewrite !aset_length. lia.
    + apply nth_aset_eq. rewrite !aset_length. lia.
  - rewrite 4 nth_aset_neq by lia. reflexivity.
Qed.
Lemma rk_loop_length fuel q fkey : forall t rkey, length (rk_loop fuel q t fkey rkey) = length rkey.
Proof. induction fuel as [|f IH]; intros t rkey; cbn [rk_loop]; [reflexivity|]. destruct (_ <? _)%nat; [|reflexivity]. rewrite IH, set4_length. reflexivity. Qed.
Lemma rk_loop_at q fkey : forall fuel t rkey r c, (4 * q <= length rkey)%nat -> (1 <= t)%nat -> (q <= fuel + t + 1)%nat -> (c < 4)%nat ->
  at_ (rk_loop fuel (4 * q) (4 * t) fkey rkey) (4 * r + c) = if (1 <=? r)%nat && (r <? q - t)%nat then invmixcol (at_ fkey (4 * (q - 1 - r) + c)) else at_ rkey (4 * r + c).
Proof.
  induction fuel as [|f IH]; intros t rkey r c HL Ht Hf Hc; cbn [rk_loop].
  - destruct (Nat.leb_spec 1 r), (Nat.ltb_spec r (q - t)); cbn [andb]; try reflexivity. lia.
  - destruct (Nat.ltb_spec (4 * t) (4 * q - 4)) as [L|L].
    + replace (4 * t + 4)%nat with (4 * S t)%nat by lia. rewrite IH by (try rewrite set4_length; lia).
      replace (4 * q - 4 - 4 * t)%nat with (4 * (q - 1 - t))%nat by lia. rewrite set4_at by lia.
      destruct (Nat.leb_spec 1 r), (Nat.ltb_spec r (q - S t)), (Nat.ltb_spec r (q - t)), (Nat.eqb_spec r (q - 1 - t)); cbn [andb]; try lia; try reflexivity.
      do 2 f_equal. lia.
    + destruct (Nat.leb_spec 1 r), (Nat.ltb_spec r (q - t)); cbn [andb]; try reflexivity. lia.
Qed.
Lemma rkey_of_at q fkey rkey r c : (4 * q <= length rkey)%nat -> (2 <= q)%nat -> (r < q)%nat -> (c < 4)%nat ->
  at_ (rkey_of (4 * q) fkey rkey) (4 * r + c) =
  let x := at_ fkey (4 * (q - 1 - r) + c) in if (r =? 0)%nat || (r =? q - 1)%nat then x else invmixcol x.
Proof.
  intros HL Hq Hr Hc. unfold rkey_of. cbv zeta.
  set (R := rk_loop (4 * q) (4 * q) 4 fkey (set4 rkey (4 * q - 4) (fun j => at_ fkey j))).
  assert (LR : length R = length rkey) by (unfold R; rewrite rk_loop_length, set4_length; reflexivity).
  pose proof (set4_at R 0 (fun j => at_ fkey (4 * q - 4 + j)) r c ltac:(lia) Hc) as Q. change (4 * 0)%nat with 0%nat in Q. rewrite Q. clear Q.
  destruct (Nat.eqb_spec r 0) as [->|N0].
  - cbn [orb]. f_equal. lia.
  - pose proof (rk_loop_at q fkey (4 * q) 1 (set4 rkey (4 * q - 4) (fun j => at_ fkey j)) r c) as Q. change (4 * 1)%nat with 4%nat in Q. fold R in Q.
    rewrite Q by (try rewrite set4_length; lia). clear Q.
    replace (4 * q - 4)%nat with (4 * (q - 1))%nat by lia. rewrite set4_at by lia. cbn [orb].
    destruct (Nat.leb_spec 1 r), (Nat.ltb_spec r (q - 1)), (Nat.eqb_spec r (q - 1)); cbn [andb]; try lia; try reflexivity; f_equal; lia.
Qed.
Lemma invmixcol_pk a b c d : byte_ok a -> byte_ok b -> byte_ok c -> byte_ok d ->
  invmixcol (pk a b c d) = pk (row 14 11 13 9 a b c d) (row 14 11 13 9 b c d a) (row 14 11 13 9 c d a b) (row 14 11 13 9 d a b c).
Proof.
  intros Ha Hb Hc Hd. unfold invmixcol. change INCO with [11; 13; 9; 14]. cbv zeta. rewrite (pack_pk 11 13 9 14) by (unfold byte_ok; lia).
  rewrite (rotl24_pk 11 13 9 14) by (unfold byte_ok; lia). rewrite (rotl24_pk 13 9 14 11) by (unfold byte_ok; lia). rewrite (rotl24_pk 9 14 11 13) by (unfold byte_ok; lia).
  assert (P : forall k0 k1 k2 k3, In k0 INCO -> In k1 INCO -> In k2 INCO -> In k3 INCO -> byte_ok k0 -> byte_ok k1 -> byte_ok k2 -> byte_ok k3 ->
    product (pk k0 k1 k2 k3) (pk a b c d) = Z.lxor (Z.lxor (Z.lxor (gmul k0 a) (gmul k1 b)) (gmul k2 c)) (gmul k3 d)).
  { intros. unfold product. rewrite !unpack_pk by assumption. unfold at_. cbn [nth]. rewrite !bmul_ok by assumption. reflexivity. }
  rewrite !P by (try (cbn; tauto); unfold byte_ok; lia).
  assert (G : forall k x, In k INCO -> byte_ok x -> byte_ok (gmul k x)). { intros k x Hk Hx. apply gmul_byte; [|exact Hx]. cbn in *. tauto. }
  assert (G9 : forall x, byte_ok x -> byte_ok (gmul 9 x)) by auto with bytes.
  rewrite pack_pk by auto 8 with bytes.
  unfold row. f_equal; apply Z.bits_inj'; intros i _; rewrite !Z.lxor_spec;
   repeat match goal with |- context [Z.testbit ?x i] => destruct (Z.testbit x i) end; reflexivity.
Qed.
Definition dkey (r : nat) : list Z := if (r =? 0)%nat || (r =? nr)%nat then round_key ws (nr - r) else inv_mix_columns (round_key ws (nr - r)).
Lemma words_inv_mix s : st_ok s -> words (inv_mix_columns s) = (let '(p0, p1, p2, p3) := words s in (invmixcol p0, invmixcol p1, invmixcol p2, invmixcol p3)).
Proof.
  intros [L F]. explode s L. inv_forall. rewrite words_pack. rewrite !invmixcol_pk by assumption. norm_state. reflexivity.
Qed.
Lemma dkey_ok r : (r <= nr)%nat -> st_ok (dkey r).
Proof. intros Hr. unfold dkey. destruct (_ || _); [|apply inv_mix_ok]; apply rk_ok; lia. Qed.
Lemma rkey_rk fkey rkey r : inv nk key fkey n -> length rkey = 60%nat -> (r <= nr)%nat -> rk_at (rkey_of n fkey rkey) (4 * r) (dkey r).
Proof.
  intros HI HL Hr. unfold rk_at. pose proof (fkey_rk fkey (nr - r) HI ltac:(lia)) as HF. unfold rk_at in HF.
  assert (Hq : (4 * (nr + 1) <= length rkey)%nat) by (rewrite HL; unfold nr; lia).
  assert (A : forall c, (c < 4)%nat -> at_ (rkey_of n fkey rkey) (4 * r + c) = let x := at_ fkey (4 * (nr - r) + c) in if (r =? 0)%nat || (r =? nr)%nat then x else invmixcol x).
  { intros c Hc. unfold n. rewrite (rkey_of_at (nr + 1)) by lia. replace (nr + 1 - 1 - r)%nat with (nr - r)%nat by lia. replace (nr + 1 - 1)%nat with nr by lia. reflexivity. }
  pose proof (A 0%nat ltac:(lia)) as A0. rewrite !Nat.add_0_r in A0. rewrite A0, (A 1%nat), (A 2%nat), (A 3%nat) by lia. cbv zeta. unfold dkey.
  destruct (_ || _); [exact HF|]. rewrite words_inv_mix by (apply rk_ok; lia). rewrite <- HF. reflexivity.
Qed.
Lemma iround_ok s r : (r <= nr)%nat -> st_ok s -> st_ok (iround ws s r).
Proof. intros Hr H. apply inv_mix_ok, ark_ok; [apply inv_sub_ok, inv_shift_ok; exact H|apply rk_ok; exact Hr]. Qed.
Lemma dec_rounds_ok fkey rkey : inv nk key fkey n -> length rkey = 60%nat -> forall cnt r s, (1 <= r)%nat -> (r + cnt <= nr)%nat -> st_ok s ->
  dec_rounds cnt (rkey_of n fkey rkey) (4 * r) (words s) = ((4 * (r + cnt))%nat, words (fold_left (iround ws) (map (fun i => (nr - i)%nat) (seq r cnt)) s)).
Proof.
  intros HI HL. induction cnt as [|c IH]; intros r s H1 Hr H; cbn [dec_rounds seq map fold_left].
  - rewrite Nat.add_0_r. reflexivity.
  - rewrite (dec_round_R (rkey_of n fkey rkey) (4 * r) s (dkey r)) by (try apply dkey_ok; try apply rkey_rk; try assumption; lia).
    assert (E : add_round_key (inv_mix_columns (inv_sub_bytes (inv_shift_rows s))) (dkey r) = iround ws s (nr - r)).
    { unfold dkey, iround. destruct (Nat.eqb_spec r 0); [lia|]. destruct (Nat.eqb_spec r nr); [lia|]. cbn [orb].
      symmetry. apply inv_mix_xor; [apply inv_sub_ok, inv_shift_ok; exact H|apply rk_ok; lia]. }
    rewrite E. replace (4 * r + 4)%nat with (4 * S r)%nat by lia. rewrite IH by (try apply iround_ok; try assumption; lia).
    replace (S r + c)%nat with (r + S c)%nat by lia. reflexivity.
Qed.
Lemma rev_seq m : forall k, rev (seq 1 m) = map (fun i => (k + m + 1 - i)%nat) (seq (k + 1) m).
Proof.
  induction m as [|m IH]; intros k; [reflexivity|]. rewrite seq_S, rev_app_distr. cbn [rev app seq map]. f_equal; [lia|].
  rewrite (IH (k + 1)%nat). replace (k + 1 + 1)%nat with (S (k + 1)) by lia. apply map_ext. intros; lia.
Qed.
Lemma irounds_ok l : forall s, Forall (fun r => (r <= nr)%nat) l -> st_ok s -> st_ok (fold_left (iround ws) l s).
Proof. induction l as [|r l IH]; intros s Hr H; cbn [fold_left]; [exact H|]. inversion Hr; subst. apply IH; [assumption|]. apply iround_ok; assumption. Qed.
Lemma inv_cipher_ok s : st_ok s -> st_ok (inv_cipher nr ws s).
Proof.
  intros H. unfold inv_cipher. apply ark_ok; [|apply rk_ok; lia]. apply inv_sub_ok, inv_shift_ok. apply (irounds_ok (rev (seq 1 (nr - 1)))).
  - apply Forall_forall. intros r Hr. apply in_rev in Hr. apply in_seq in Hr. lia.
  - apply ark_ok; [exact H|apply rk_ok; lia].
Qed.
Theorem ecb_decrypt_spec a buff fkey rkey : a_nr a = nr -> inv nk key fkey n -> length rkey = 60%nat -> a_rkey a = rkey_of n fkey rkey -> st_ok buff ->
  ecb_decrypt a buff = inv_cipher nr ws buff.
Proof.
  intros En HI HL ER Hb. unfold ecb_decrypt. rewrite En, ER.
  assert (D0 : dkey 0 = round_key ws nr) by (unfold dkey; cbn [Nat.eqb orb]; f_equal; lia).
  assert (Dn : dkey nr = round_key ws 0) by (unfold dkey; rewrite Nat.eqb_refl, orb_true_r; f_equal; lia).
  rewrite (load_words buff (rkey_of n fkey rkey) (dkey 0)) by (try apply dkey_ok; try apply (rkey_rk fkey rkey 0); try assumption; lia).
  assert (H0 : st_ok (add_round_key buff (dkey 0))) by (apply ark_ok; [exact Hb|apply dkey_ok; lia]).
  change 4%nat with (4 * 1)%nat at 1. rewrite (dec_rounds_ok fkey rkey HI HL (nr - 1) 1) by (try assumption; unfold nr; lia).
  assert (ES : map (fun i => (nr - i)%nat) (seq 1 (nr - 1)) = rev (seq 1 (nr - 1))).
  { rewrite (rev_seq (nr - 1) 0). cbn [Nat.add]. apply map_ext. intros i. unfold nr. lia. }
  rewrite ES, D0. rewrite D0 in H0.
  set (s := fold_left (iround ws) (rev (seq 1 (nr - 1))) (add_round_key buff (round_key ws nr))).
  assert (Hs : st_ok s). { apply irounds_ok; [|exact H0]. apply Forall_forall. intros r Hr. apply in_rev in Hr. apply in_seq in Hr. lia. }
  replace (4 * (1 + (nr - 1)))%nat with (4 * nr)%nat by (unfold nr; lia).
  rewrite (dec_round_RB (rkey_of n fkey rkey) (4 * nr) s (dkey nr)) by (try apply dkey_ok; try apply rkey_rk; try assumption; lia). rewrite Dn.
  rewrite store_words by (apply ark_ok; [apply inv_sub_ok, inv_shift_ok; exact Hs|apply rk_ok; lia]). reflexivity.
Qed.

(** ** the inverse cipher inverts the cipher *)
Lemma iround_last s r : (r <= nr)%nat -> st_ok s -> inv_sub_bytes (inv_shift_rows (shift_rows (sub_bytes s))) = s.
Proof. intros _ H. rewrite inv_shift_shift by (apply sub_ok; exact H). apply inv_sub_sub. exact H. Qed.
Lemma step_inverse t r : (r <= nr)%nat -> st_ok t -> iround ws (shift_rows (sub_bytes (fround ws t r))) r = shift_rows (sub_bytes t).
Proof.
  intros Hr Ht. unfold iround. rewrite (iround_last _ 0) by (try apply fround_ok; try assumption; lia). unfold fround.
  rewrite ark_ark by (try apply rk_ok; try apply mix_ok, shift_ok, sub_ok; try assumption; lia). apply inv_mix_mix. apply shift_ok, sub_ok. exact Ht.
Qed.
Lemma rounds_inverse m : forall s, (m < nr)%nat -> st_ok s ->
  fold_left (iround ws) (rev (seq 1 m)) (shift_rows (sub_bytes (fold_left (fround ws) (seq 1 m) s))) = shift_rows (sub_bytes s).
Proof.
  induction m as [|m IH]; intros s Hm H; [reflexivity|]. specialize (IH s ltac:(lia) H). pose proof (frounds_ok m 1 s ltac:(lia) H) as Ht. pose proof (step_inverse _ (1 + m) ltac:(lia) Ht) as E.
  rewrite seq_S. rewrite rev_app_distr. rewrite fold_left_app. rewrite (fold_left_app (fround ws)). cbn [rev app fold_left].
  etransitivity; [|exact IH]. f_equal. exact E.
Qed.
Theorem inv_cipher_cipher s : st_ok s -> inv_cipher nr ws (cipher nr ws s) = s.
Proof.
  intros H. unfold inv_cipher, cipher.
  set (s0 := add_round_key s (round_key ws 0)). assert (H0 : st_ok s0) by (apply ark_ok; [exact H|apply rk_ok; lia]).
  change (fun s r => add_round_key (mix_columns (shift_rows (sub_bytes s))) (round_key ws r)) with (fround ws).
  change (fun s r => inv_mix_columns (add_round_key (inv_sub_bytes (inv_shift_rows s)) (round_key ws r))) with (iround ws).
  rewrite ark_ark by (try apply rk_ok; try apply shift_ok, sub_ok, frounds_ok; try assumption; lia).
  rewrite rounds_inverse by (try assumption; unfold nr; lia). rewrite (iround_last _ 0) by (try assumption; lia). apply ark_ark; [exact H|apply rk_ok; lia].
Qed.
Lemma ftop s : st_ok s -> shift_rows (sub_bytes (inv_sub_bytes (inv_shift_rows s))) = s.
Proof. intros H. rewrite sub_inv_sub by (apply inv_shift_ok; exact H). apply shift_inv_shift. exact H. Qed.
Lemma rounds_inverse' m : forall s, (m < nr)%nat -> st_ok s ->
  fold_left (fround ws) (seq 1 m) (inv_sub_bytes (inv_shift_rows (fold_left (iround ws) (rev (seq 1 m)) s))) = inv_sub_bytes (inv_shift_rows s).
Proof.
  induction m as [|m IH]; intros s Hm H; [reflexivity|].
  rewrite seq_S. rewrite rev_app_distr. cbn [rev app fold_left]. rewrite fold_left_app. cbn [fold_left].
  assert (Hi : st_ok (iround ws s (1 + m))) by (apply iround_ok; [lia|exact H]).
  rewrite IH by (try assumption; lia). unfold fround. rewrite ftop by assumption. unfold iround.
  rewrite mix_inv_mix by (apply ark_ok; [apply inv_sub_ok, inv_shift_ok; exact H|apply rk_ok; lia]).
  apply ark_ark; [apply inv_sub_ok, inv_shift_ok; exact H|apply rk_ok; lia].
Qed.
Theorem cipher_inv_cipher s : st_ok s -> cipher nr ws (inv_cipher nr ws s) = s.
Proof.
  intros H. unfold inv_cipher, cipher.
  set (s0 := add_round_key s (round_key ws nr)). assert (H0 : st_ok s0) by (apply ark_ok; [exact H|apply rk_ok; lia]).
  change (fun s r => add_round_key (mix_columns (shift_rows (sub_bytes s))) (round_key ws r)) with (fround ws).
  change (fun s r => inv_mix_columns (add_round_key (inv_sub_bytes (inv_shift_rows s)) (round_key ws r))) with (iround ws).
  assert (Hi : st_ok (fold_left (iround ws) (rev (seq 1 (nr - 1))) s0)).
  { apply irounds_ok; [|exact H0]. apply Forall_forall. intros r Hr. apply in_rev in Hr. apply in_seq in Hr. lia. }
  rewrite ark_ark by (try apply rk_ok; try apply inv_sub_ok, inv_shift_ok; try assumption; lia).
  rewrite rounds_inverse' by (try assumption; unfold nr; lia). rewrite ftop by assumption. apply ark_ark; [exact H|apply rk_ok; lia].
Qed.
End Cipher.

(** ** objects initialised with a key *)
Definition keyed (a : aes) (key : list Z) : Prop :=
  exists nk fkey rkey, (nk = 4%nat \/ nk = 6%nat \/ nk = 8%nat) /\ length key = (4 * nk)%nat /\ Forall byte_ok key /\ a_nr a = (6 + nk)%nat
    /\ inv nk key fkey (4 * (6 + nk + 1)) /\ length rkey = 60%nat /\ a_fkey a = fkey /\ a_rkey a = rkey_of (4 * (6 + nk + 1)) fkey rkey.
Lemma keyed_div nk (key : list Z) : length key = (4 * nk)%nat -> (length key / 4 = nk)%nat.
Proof. intros ->. rewrite Nat.mul_comm. apply Nat.div_mul. lia. Qed.
Lemma keyed_enc a key b : keyed a key -> st_ok b -> ecb_encrypt a b = aes_enc key b.
Proof.
  intros [nk [fkey [rkey [Hnk [Hl [Hk [Hn [HI [_ [Hf _]]]]]]]]]] Hb. subst fkey. unfold aes_enc, aes_schedule. rewrite (keyed_div nk key Hl).
  rewrite (ecb_encrypt_spec nk key Hnk Hl Hk a b Hn HI Hb). replace (nk + 7)%nat with (6 + nk + 1)%nat by lia. f_equal. lia.
Qed.
Lemma keyed_dec a key b : keyed a key -> st_ok b -> ecb_decrypt a b = aes_dec key b.
Proof.
  intros [nk [fkey [rkey [Hnk [Hl [Hk [Hn [HI [HL [Hf Hr]]]]]]]]]] Hb. unfold aes_dec, aes_schedule. rewrite (keyed_div nk key Hl).
  rewrite (ecb_decrypt_spec nk key Hnk Hl Hk a b fkey rkey Hn HI HL Hr Hb). replace (nk + 7)%nat with (6 + nk + 1)%nat by lia. f_equal. lia.
Qed.
Definition keylen (key : list Z) : Prop := length key = 16%nat \/ length key = 24%nat \/ length key = 32%nat.
Lemma aes_enc_ok key b : keylen key -> Forall byte_ok key -> st_ok b -> st_ok (aes_enc key b).
Proof.
  intros Hl Hk Hb. assert (exists nk, (nk = 4%nat \/ nk = 6%nat \/ nk = 8%nat) /\ length key = (4 * nk)%nat) as [nk [Hnk E]].
  { destruct Hl as [H|[H|H]]; [exists 4%nat|exists 6%nat|exists 8%nat]; rewrite H; lia. }
  unfold aes_enc, aes_schedule. rewrite (keyed_div nk key E). replace (nk + 7)%nat with (6 + nk + 1)%nat by lia. replace (nk + 6)%nat with (6 + nk)%nat by lia.
  apply cipher_ok; assumption.
Qed.
Lemma aes_dec_ok key b : keylen key -> Forall byte_ok key -> st_ok b -> st_ok (aes_dec key b).
Proof.
  intros Hl Hk Hb. assert (exists nk, (nk = 4%nat \/ nk = 6%nat \/ nk = 8%nat) /\ length key = (4 * nk)%nat) as [nk [Hnk E]].
  { destruct Hl as [H|[H|H]]; [exists 4%nat|exists 6%nat|exists 8%nat]; rewrite H; lia. }
  unfold aes_dec, aes_schedule. rewrite (keyed_div nk key E). replace (nk + 7)%nat with (6 + nk + 1)%nat by lia. replace (nk + 6)%nat with (6 + nk)%nat by lia.
  apply inv_cipher_ok; assumption.
Qed.
Lemma aes_dec_enc key b : keylen key -> Forall byte_ok key -> st_ok b -> aes_dec key (aes_enc key b) = b.
Proof.
  intros Hl Hk Hb. assert (exists nk, (nk = 4%nat \/ nk = 6%nat \/ nk = 8%nat) /\ length key = (4 * nk)%nat) as [nk [Hnk E]].
  { destruct Hl as [H|[H|H]]; [exists 4%nat|exists 6%nat|exists 8%nat]; rewrite H; lia. }
  unfold aes_dec, aes_enc, aes_schedule. rewrite (keyed_div nk key E). replace (nk + 7)%nat with (6 + nk + 1)%nat by lia. replace (nk + 6)%nat with (6 + nk)%nat by lia.
  apply inv_cipher_cipher; assumption.
Qed.
Lemma aes_enc_dec key b : keylen key -> Forall byte_ok key -> st_ok b -> aes_enc key (aes_dec key b) = b.
Proof.
  intros Hl Hk Hb. assert (exists nk, (nk = 4%nat \/ nk = 6%nat \/ nk = 8%nat) /\ length key = (4 * nk)%nat) as [nk [Hnk E]].
  { destruct Hl as [H|[H|H]]; [exists 4%nat|exists 6%nat|exists 8%nat]; rewrite H; lia. }
  unfold aes_dec, aes_enc, aes_schedule. rewrite (keyed_div nk key E). replace (nk + 7)%nat with (6 + nk + 1)%nat by lia. replace (nk + 6)%nat with (6 + nk)%nat by lia.
  apply cipher_inv_cipher; assumption.
Qed.
(** init with nkey accepted *)
Definition aes_wf (a : aes) : Prop := length (a_fkey a) = 60%nat /\ length (a_rkey a) = 60%nat.
Lemma init_keyed a m nkey key iv : aes_wf a -> Forall byte_ok key -> (4 * (nkey / 4) <= length key)%nat ->
  ((nkey / 4 = 4)%nat \/ (nkey / 4 = 6)%nat \/ (nkey / 4 = 8)%nat) ->
  exists a', aes_init a m nkey key iv = Some (true, a') /\ keyed a' (firstn (4 * (nkey / 4)) key) /\ a_mode a' = m /\ aes_wf a'
    /\ a_f a' = (if Nat.eqb m ECB then repeat 0 16 else match iv with Some x => x | None => repeat 0 16 end).
Proof.
  intros [HF HR] Hk Hl Hnk. set (nk := (nkey / 4)%nat) in *. unfold aes_init. fold nk.
  replace (negb (Nat.eqb nk 4) && negb (Nat.eqb nk 6) && negb (Nat.eqb nk 8)) with false by (destruct Hnk as [->|[->| ->]]; reflexivity).
  set (k := firstn (4 * nk) key). assert (Lk : length k = (4 * nk)%nat) by (unfold k; rewrite firstn_length; lia).
  assert (Fk : Forall byte_ok k). { unfold k. rewrite <- (firstn_skipn (4 * nk) key) in Hk. apply Forall_app in Hk. tauto. }
  cbn [a_fkey a_rkey aes_reset].
  assert (EL : load_key nk key = load_key nk k).
  { rewrite (load_key_ok nk key), (load_key_ok nk k) by (try assumption; lia). f_equal. apply map_ext_in. intros i Hi. apply in_seq in Hi. f_equal.
    unfold k. rewrite skipn_firstn_comm. rewrite firstn_firstn. rewrite Nat.min_l by lia. reflexivity. }
  destruct (inv_load nk k Hnk Lk Fk (a_fkey a) HF) as [ck [E1 E2]]. rewrite EL, E1. cbn [bind].
  eexists. split; [reflexivity|].
  assert (HI : inv nk k (ks_loop (4 * (6 + nk + 1)) nk nk (4 * (6 + nk + 1)) 0 (copy_into (a_fkey a) ck 0)) (4 * (6 + nk + 1))).
  { pose proof (ks_loop_ok nk k Hnk Lk Fk (4 * (6 + nk + 1)) ltac:(lia) (4 * (6 + nk + 1)) 0 (copy_into (a_fkey a) ck 0) ltac:(lia)) as Q.
    replace (nk * (0 + 1))%nat with nk in Q by lia. rewrite Nat.min_r in Q by lia. apply Q. exact E2. }
  split.
  { exists nk, (ks_loop (4 * (6 + nk + 1)) nk nk (4 * (6 + nk + 1)) 0 (copy_into (a_fkey a) ck 0)), (a_rkey a). cbn [a_nr a_fkey a_rkey].
    repeat (split; [assumption || reflexivity|]). reflexivity. }
  cbn [a_mode a_f]. split; [reflexivity|]. split; [|reflexivity]. split; cbn [a_fkey a_rkey]; [exact (proj1 HI)|].
  unfold rkey_of. rewrite set4_length, rk_loop_length, set4_length. exact HR.
Qed.
