(** Key schedule, and the cipher as a whole. *)
From Verif Require Import Base.Word Base.Arr Model.AesTables Model.Aes Spec.AesSpec Proof.AesBase Proof.AesBlock.

Definition pkw (w : list Z) : Z := pk (at_ w 0) (at_ w 1) (at_ w 2) (at_ w 3).
Definition w_ok (w : list Z) : Prop := length w = 4%nat /\ Forall byte_ok w.

Section Sched.
Variable nk : nat.
Variable key : list Z.
Hypothesis Hnk : nk = 4%nat \/ nk = 6%nat \/ nk = 8%nat.
Hypothesis Hlen : length key = (4 * nk)%nat.
Hypothesis Hkey : Forall byte_ok key.
Notation kw := (key_words nk key).

Lemma kw_length m : length (kw m) = m.
Proof. induction m as [|m IH]; cbn [key_words]; [reflexivity|]. rewrite app_length, IH. cbn. lia. Qed.
Lemma kw_prefix m i : (i < m)%nat -> nth i (kw m) [] = nth i (kw (S i)) [].
Proof.
  induction m as [|m IH]; intros H; [lia|]. destruct (Nat.eq_dec i m) as [->|N]; [reflexivity|].
  rewrite <- IH by lia. cbn [key_words]. rewrite app_nth1 by (rewrite kw_length; lia). reflexivity.
Qed.
Lemma kw_last m : nth m (kw (S m)) [] = next_word nk key (kw m).
Proof. cbn [key_words]. rewrite app_nth2 by (rewrite kw_length; lia). rewrite kw_length, Nat.sub_diag. reflexivity. Qed.
Lemma last_nth {A} (l : list A) d : last l d = nth (length l - 1) l d.
Proof.
  induction l as [|x l IH]; [reflexivity|]. destruct l as [|y l]; [reflexivity|]. change (last (x :: y :: l) d) with (last (y :: l) d).
  rewrite IH. cbn [length]. rewrite !Nat.sub_succ, !Nat.sub_0_r. reflexivity.
Qed.
Lemma xorl_w a b : w_ok a -> w_ok b -> w_ok (xorl a b).
Proof. intros [L1 F1] [L2 F2]. split; [rewrite xorl_length, L1, L2; reflexivity|apply xorl_bytes; assumption]. Qed.
Lemma sub_word_w w : w_ok w -> w_ok (sub_word w).
Proof. intros [L F]. split; [unfold sub_word; rewrite map_length; exact L|]. apply Forall_map. eapply Forall_impl; [|exact F]. intros; apply sbox_byte; assumption. Qed.
Lemma rot_word_w w : w_ok w -> w_ok (rot_word w).
Proof. intros [L F]. split; [reflexivity|]. repeat (apply Forall_cons; [apply at_byte; exact F|]). apply Forall_nil. Qed.
Lemma gpow2_byte i : byte_ok (gpow 2 i).
Proof. induction i as [|i IH]; cbn [gpow]; [unfold byte_ok; lia|]. 
  assert (G : forallb (fun x => isb (gmul 2 x) && (gmul 2 x =? gmul x 2)) byte_list = true) by (vm_compute; reflexivity).
  pose proof (byte_sweep _ G _ IH) as Q. cbv beta in Q. apply andb_true_iff in Q. destruct Q as [Q _]. apply isb_ok. exact Q.
Qed.
Lemma rcon_w i : w_ok (rcon i).
Proof. split; [reflexivity|]. apply Forall_cons; [apply gpow2_byte|]. repeat (apply Forall_cons; [apply byte_0|]). apply Forall_nil. Qed.
Lemma kw_ok m : Forall w_ok (kw m).
Proof.
  induction m as [|m IH]; cbn [key_words]; [constructor|]. apply Forall_app. split; [exact IH|]. constructor; [|constructor].
  unfold next_word. rewrite kw_length. destruct (Nat.ltb_spec m nk) as [L|L].
  - split.
    + rewrite firstn_length, skipn_length, Hlen. lia.
    + apply Forall_forall. intros x Hx. rewrite Forall_forall in Hkey. apply Hkey.
      rewrite <- (firstn_skipn (4 * m) key). apply in_or_app. right. rewrite <- (firstn_skipn 4 (skipn (4 * m) key)). apply in_or_app. left. exact Hx.
  - assert (HM : (m <> 0)%nat) by lia.
    assert (T : w_ok (last (kw m) [])). { rewrite last_nth, kw_length. rewrite Forall_forall in IH. apply IH. apply nth_In. rewrite kw_length. lia. }
    assert (B : w_ok (nth (m - nk) (kw m) [])). { rewrite Forall_forall in IH. apply IH. apply nth_In. rewrite kw_length. lia. }
    apply xorl_w; [exact B|]. destruct (_ =? 0)%nat; [apply xorl_w; [apply sub_word_w, rot_word_w; exact T|apply rcon_w]|].
    destruct (_ && _); [apply sub_word_w; exact T|exact T].
Qed.
Lemma kw_nth m i : (i < m)%nat -> w_ok (nth i (kw m) []).
Proof. intros H. pose proof (kw_ok m) as K. rewrite Forall_forall in K. apply K. apply nth_In. rewrite kw_length. exact H. Qed.

(** words as packed integers *)
Lemma pkw_xor a b : w_ok a -> w_ok b -> Z.lxor (pkw a) (pkw b) = pkw (xorl a b).
Proof.
  intros [L1 F1] [L2 F2]. explode a L1. explode b L2. inv_forall. unfold pkw, at_. cbn [nth xorl]. apply lxor_pk; assumption.
Qed.
Lemma subbyte_pkw w : w_ok w -> subbyte (pkw w) = pkw (sub_word w).
Proof.
  intros [L F]. explode w L. inv_forall. unfold pkw, at_, subbyte, sub_word. cbn [nth map]. rewrite unpack_pk by assumption. cbn [map].
  rewrite !tab_FB by assumption. apply pack_pk; auto with bytes.
Qed.
Lemma rotl24_pkw w : w_ok w -> rotl24 (pkw w) = pkw (rot_word w).
Proof. intros [L F]. explode w L. inv_forall. unfold pkw, rot_word, at_. cbn [nth]. apply rotl24_pk; assumption. Qed.

(** ** invariant of the schedule *)
Definition inv (fkey : list Z) (m : nat) : Prop := length fkey = 60%nat /\ forall i, (i < m)%nat -> at_ fkey i = pkw (nth i (kw m) []).
Lemma inv_step fkey m v : (m < 60)%nat -> inv fkey m -> v = pkw (next_word nk key (kw m)) -> inv (aset fkey m v) (S m).
Proof.
  intros Hm [HL HI] Hv. split; [rewrite aset_length; exact HL|]. intros i Hi. destruct (Nat.eq_dec i m) as [->|N].
  - unfold at_. rewrite nth_aset_eq by lia. rewrite kw_last. exact Hv.
  - unfold at_. rewrite nth_aset_neq by exact N. fold (at_ fkey i). rewrite HI by lia. rewrite (kw_prefix m), (kw_prefix (S m)) by lia. reflexivity.
Qed.
Lemma load_key_ok : forall n k, Forall byte_ok k -> (4 * n <= length k)%nat ->
  load_key n k = Some (map (fun i => pkw (firstn 4 (skipn (4 * i) k))) (seq 0 n)).
Proof.
  clear. induction n as [|n IH]; intros k F L; [reflexivity|].
  destruct k as [|k0 [|k1 [|k2 [|k3 k]]]]; cbn [length] in L; try lia. inv_forall. cbn [load_key]. rewrite IH by (try assumption; lia). cbn [bind].
  rewrite pack_pk by assumption. cbn [seq map]. f_equal. f_equal. rewrite <- seq_shift, map_map. apply map_ext. intros i.
  replace (4 * S i)%nat with (S (S (S (S (4 * i))))) by lia. reflexivity.
Qed.
Lemma copy_into_length src : forall dst i, length (copy_into dst src i) = length dst.
Proof. induction src as [|x t IH]; intros dst i; cbn [copy_into]; [reflexivity|]. rewrite IH, aset_length. reflexivity. Qed.
Lemma copy_into_at src : forall dst i m, (i + length src <= length dst)%nat ->
  at_ (copy_into dst src i) m = if (i <=? m)%nat && (m <? i + length src)%nat then at_ src (m - i) else at_ dst m.
Proof.
  induction src as [|x t IH]; intros dst i m HL; cbn [copy_into length] in *.
  - replace (i + 0)%nat with i by lia. destruct (Nat.leb_spec i m), (Nat.ltb_spec m i); try lia; reflexivity.
  - rewrite IH by (rewrite aset_length; lia).
    destruct (Nat.leb_spec (S i) m), (Nat.ltb_spec m (S i + length t)), (Nat.leb_spec i m), (Nat.ltb_spec m (i + S (length t))); cbn [andb]; try lia; unfold at_.
    all: first [apply nth_aset_neq; lia|replace (m - i)%nat with (S (m - S i)) by lia; reflexivity|assert (m = i) by lia; subst; rewrite nth_aset_eq by lia; rewrite Nat.sub_diag; reflexivity].
Qed.
Lemma inv_load fkey : length fkey = 60%nat -> exists ck, load_key nk key = Some ck /\ inv (copy_into fkey ck 0) nk.
Proof.
  intros HL. rewrite load_key_ok by (try assumption; lia). eexists. split; [reflexivity|]. split; [rewrite copy_into_length; exact HL|].
  intros i Hi. rewrite copy_into_at by (rewrite map_length, seq_length; lia). rewrite map_length, seq_length.
  destruct (Nat.leb_spec 0 i), (Nat.ltb_spec i (0 + nk)); try lia. cbn [andb]. rewrite Nat.sub_0_r. unfold at_.
  rewrite nth_map_seq by exact Hi. cbn [plus]. rewrite kw_prefix by exact Hi. rewrite kw_last. unfold next_word. rewrite kw_length.
  destruct (Nat.ltb_spec i nk); [reflexivity|lia].
Qed.
(* the plain assignments: index m = i + j with i not a multiple of nk (nor 4 for nk = 8) *)
Lemma inner_ok j n q : (j = nk * q)%nat -> (1 <= q)%nat -> (n <= 60)%nat -> forall cnt a fkey, (1 <= a)%nat -> (a + cnt <= nk)%nat ->
  (forall i, (a <= i < a + cnt)%nat -> ~ (6 < nk /\ i = 4)%nat) ->
  inv fkey (Nat.min n (j + a)) -> inv (ks_inner nk j n (seq a cnt) fkey) (Nat.min n (j + a + cnt)).
Proof.
  intros Ej Hq Hn. induction cnt as [|cnt IH]; intros a fkey Ha Hc H4 HI; cbn [seq ks_inner].
  - replace (j + a + 0)%nat with (j + a)%nat by lia. exact HI.
  - destruct (Nat.leb_spec n (a + j)) as [L|L].
    + rewrite Nat.min_l in * by lia. exact HI.
    + replace (j + a + S cnt)%nat with (j + S a + cnt)%nat by lia. apply IH; [lia|lia|intros i Hi; apply H4; lia|].
      rewrite Nat.min_r in * by lia. replace (j + S a)%nat with (S (j + a)) by lia. replace (a + j)%nat with (j + a)%nat by lia.
      assert (Hm : ((j + a) mod nk = a)%nat). { rewrite Ej. rewrite Nat.add_comm, Nat.mul_comm, Nat.mod_add by lia. apply Nat.mod_small. lia. }
      apply inv_step; [lia|exact HI|]. destruct HI as [_ HI]. rewrite !HI by lia.
      rewrite pkw_xor by (apply kw_nth; nia). f_equal. unfold next_word. rewrite kw_length.
      destruct (Nat.ltb_spec (j + a) nk); [nia|]. cbv zeta. rewrite Hm. destruct (Nat.eqb_spec a 0); [lia|].
      destruct (_ && _) eqn:E.
      { apply andb_true_iff in E. destruct E as [E1 E2]. apply Nat.ltb_lt in E1. apply Nat.eqb_eq in E2. exfalso. apply (H4 a); lia. }
      rewrite last_nth, kw_length. reflexivity.
Qed.
Lemma RCO_ok k : (k < 10)%nat -> at_ RCO k = pkw (rcon (S k)).
Proof. intros H. do 10 (destruct k as [|k]; [vm_compute; reflexivity|]). lia. Qed.
Lemma ks_step_ok n k fkey : (n <= 60)%nat -> (k < 10)%nat -> (nk * (k + 1) < n)%nat -> inv fkey (nk * (k + 1)) ->
  inv (ks_step nk (nk * (k + 1)) n k fkey) (Nat.min n (nk * (k + 2))).
Proof.
  intros Hn Hk Hj HI. set (j := (nk * (k + 1))%nat) in *. assert (Hj1 : (nk <= j)%nat) by (subst j; nia).
  assert (HI1 : inv (aset fkey j (Z.lxor (Z.lxor (at_ fkey (j - nk)) (subbyte (rotl24 (at_ fkey (j - 1))))) (at_ RCO k))) (Nat.min n (j + 1))).
  { replace (Nat.min n (j + 1)) with (S j) by lia. apply inv_step; [lia|exact HI|]. destruct HI as [_ HI]. rewrite !HI by lia.
    rewrite RCO_ok by exact Hk. rewrite rotl24_pkw by (apply kw_nth; lia). rewrite subbyte_pkw by (apply rot_word_w, kw_nth; lia).
    rewrite pkw_xor by (try apply sub_word_w, rot_word_w; apply kw_nth; lia). 
    rewrite pkw_xor by (try apply xorl_w; try apply rcon_w; try apply sub_word_w, rot_word_w; apply kw_nth; lia). f_equal.
    unfold next_word. rewrite kw_length. destruct (Nat.ltb_spec j nk); [lia|]. cbv zeta.
    assert (Em : (j mod nk = 0)%nat) by (subst j; rewrite Nat.mul_comm; apply Nat.mod_mul; lia). rewrite Em. cbn [Nat.eqb].
    assert (Ed : (j / nk = S k)%nat) by (subst j; rewrite Nat.mul_comm, Nat.div_mul by lia; lia). rewrite Ed. rewrite last_nth, kw_length.
    apply xorl_assoc. }
  unfold ks_step. set (f1 := aset fkey j _) in *. clearbody f1.
  assert (E2 : (nk * (k + 2) = j + nk)%nat) by (subst j; nia). rewrite E2.
  destruct (Nat.leb_spec nk 6) as [L|L].
  - pose proof (inner_ok j n (k + 1) eq_refl ltac:(lia) Hn (nk - 1) 1 f1 ltac:(lia) ltac:(lia) ltac:(lia) HI1) as Q.
    replace (j + 1 + (nk - 1))%nat with (j + nk)%nat in Q by lia. exact Q.
  - assert (E8 : nk = 8%nat) by lia.
    assert (Q1 : inv (ks_inner nk j n (seq 1 3) f1) (Nat.min n (j + 4))).
    { pose proof (inner_ok j n (k + 1) eq_refl ltac:(lia) Hn 3 1 f1 ltac:(lia) ltac:(lia) ltac:(lia) HI1) as Q.
      replace (j + 1 + 3)%nat with (j + 4)%nat in Q by lia. exact Q. }
    set (f2 := ks_inner nk j n (seq 1 3) f1) in *. clearbody f2.
    assert (Q2 : inv (if (j + 4 <? n)%nat then aset f2 (j + 4) (Z.lxor (at_ f2 (j + 4 - nk)) (subbyte (at_ f2 (j + 3)))) else f2) (Nat.min n (j + 5))).
    { destruct (Nat.ltb_spec (j + 4) n) as [L4|L4].
      - rewrite Nat.min_r in Q1 by lia. replace (Nat.min n (j + 5)) with (S (j + 4)) by lia. apply inv_step; [lia|exact Q1|]. destruct Q1 as [_ Q1]. rewrite !Q1 by lia.
        rewrite subbyte_pkw by (apply kw_nth; lia). rewrite pkw_xor by (try apply sub_word_w; apply kw_nth; lia). f_equal.
        unfold next_word. rewrite kw_length. destruct (Nat.ltb_spec (j + 4) nk); [lia|]. cbv zeta.
        assert (Hm : ((j + 4) mod nk = 4)%nat). { subst j. rewrite Nat.add_comm, Nat.mul_comm, Nat.mod_add by lia. apply Nat.mod_small. lia. }
        rewrite Hm. cbn [Nat.eqb]. destruct (Nat.ltb_spec 6 nk); [|lia]. cbn [andb]. rewrite last_nth, kw_length. replace (j + 4 - 1)%nat with (j + 3)%nat by lia. reflexivity.
      - rewrite Nat.min_l in * by lia. exact Q1. }
    set (f3 := if (j + 4 <? n)%nat then _ else f2) in *. clearbody f3.
    pose proof (inner_ok j n (k + 1) eq_refl ltac:(lia) Hn (nk - 5) 5 f3 ltac:(lia) ltac:(lia) ltac:(lia) Q2) as Q.
    replace (j + 5 + (nk - 5))%nat with (j + nk)%nat in Q by lia. exact Q.
Qed.
Lemma ks_loop_ok n : n = (4 * (nk + 7))%nat -> forall fuel k fkey, (n <= fuel + nk * (k + 1))%nat -> inv fkey (Nat.min n (nk * (k + 1))) ->
  inv (ks_loop fuel nk (nk * (k + 1)) n k fkey) n.
Proof.
  intros En. induction fuel as [|fuel IH]; intros k fkey HF HI; cbn [ks_loop].
  - rewrite Nat.min_l in HI by lia. exact HI.
  - destruct (Nat.ltb_spec (nk * (k + 1)) n) as [L|L].
    + replace (nk * (k + 1) + nk)%nat with (nk * (S k + 1))%nat by lia. apply IH; [nia|].
      rewrite Nat.min_r in HI by lia. replace (nk * (S k + 1))%nat with (nk * (k + 2))%nat by lia.
      apply ks_step_ok; [lia|destruct Hnk as [->|[->| ->]]; lia|exact L|exact HI].
    + rewrite Nat.min_l in HI by lia. exact HI.
Qed.
End Sched.
