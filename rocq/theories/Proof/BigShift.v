(** Shifts, masks, bit tests, byte codecs of Big. *)
From Verif Require Import Base.Word Model.Big Spec.Bytes Proof.BigVal.
Require Import Psatz.

Lemma wrap_mod b x n : 0 <= n <= b -> (wrap b x) mod 2 ^ n = x mod 2 ^ n.
Proof.
  intros H. unfold wrap.
  assert (P : 0 < 2 ^ n) by (apply pow2_pos; lia).
  assert (Pb : 0 < 2 ^ b) by (apply pow2_pos; lia).
  rewrite (Z.mod_eq (x + 2 ^ (b - 1)) (2 ^ b)) by lia.
  replace (2 ^ b) with (2 ^ (b - n) * 2 ^ n) at 1 by (rewrite <- Z.pow_add_r by lia; f_equal; lia).
  set (q := (x + 2 ^ (b - 1)) / 2 ^ b).
  replace (x + 2 ^ (b - 1) - 2 ^ (b - n) * 2 ^ n * q - 2 ^ (b - 1))
    with (x + (- (2 ^ (b - n) * q)) * 2 ^ n) by ring.
  apply Z.mod_add. lia.
Qed.

(** ** nbits *)
Lemma count_bits_spec fuel x : 0 < x < 2 ^ (Z.of_nat fuel - 1) -> (0 < fuel)%nat ->
  count_bits fuel x = Some (Z.log2 x + 1).
Proof.
  revert x. induction fuel as [|f IH]; intros x Hx Hf; [lia|].
  cbn [count_bits]. destruct (Z.eqb_spec x 0) as [E|E]; [lia|].
  rewrite Z.quot_div_nonneg by lia.
  destruct (Z.eq_dec x 1) as [->|N1].
  - destruct f; [cbn in Hx; lia|]. cbn. reflexivity.
  - replace (Z.of_nat (S f) - 1) with (Z.of_nat f) in Hx by lia.
    assert (Hf0 : (0 < f)%nat).
    { destruct f; [|lia]. cbn in Hx. lia. }
    rewrite IH.
    + cbn [bind]. f_equal. pose proof (Z.log2_shiftr x 1 ltac:(lia)) as L.
      rewrite Z.shiftr_div_pow2 in L by lia. change (2 ^ 1) with 2 in L. rewrite L.
      pose proof (Z.log2_pos x ltac:(lia)). lia.
    + split; [apply Z.div_str_pos; lia|]. apply Z.div_lt_upper_bound; [lia|].
      replace (Z.of_nat f) with (1 + (Z.of_nat f - 1)) in Hx by lia. rewrite Z.pow_add_r in Hx by lia.
      change (2 ^ 1) with 2 in Hx. lia.
    + exact Hf0.
Qed.
(** ** mod2m, bit *)
Lemma get_nth w m : (m < length w)%nat -> skipn m w = get w m :: skipn (S m) w.
Proof.
  revert w. induction m as [|m IH]; intros [|x t] H; cbn in H; try lia; [reflexivity|].
  cbn [skipn]. unfold get. cbn [nth]. apply IH. lia.
Qed.

Lemma land_pow2_testbit x n : 0 <= n -> 0 <= x -> (0 <? Z.land x (2 ^ n)) = Z.testbit x n.
Proof.
  intros Hn Hx. destruct (Z.testbit x n) eqn:E.
  - apply Z.ltb_lt. assert (N : Z.land x (2 ^ n) <> 0).
    { intros H0. assert (T : Z.testbit (Z.land x (2 ^ n)) n = false) by (rewrite H0; apply Z.bits_0).
      rewrite Z.land_spec, E, Z.pow2_bits_true in T by lia. discriminate. }
    assert (0 <= Z.land x (2 ^ n)) by (apply Z.land_nonneg; lia). lia.
  - apply Z.ltb_ge. assert (H0 : Z.land x (2 ^ n) = 0); [|lia].
    apply Z.bits_inj'. intros i Hi. rewrite Z.bits_0, Z.land_spec.
    destruct (Z.eq_dec i n) as [->|N]; [rewrite E; reflexivity|].
    rewrite Z.pow2_bits_false by lia. apply andb_false_r.
Qed.

Section WithCfg.
Variable c : cfg.
Notation B := (BASEBITS c).
Notation C := (CHUNK c).
Hypothesis HB : 8 <= B.
Hypothesis HC : B + 3 <= C.
Let P2B : 0 < 2 ^ B. Proof. apply pow2_pos; lia. Qed.

Lemma wrap_bmask x : Z.land (wrap C x) (BMASK c) = x mod 2 ^ B.
Proof. rewrite bmask_land by exact HB. apply wrap_mod. lia. Qed.

Lemma val_mod_low x t k : 0 <= k <= B -> val B (x :: t) mod 2 ^ k = x mod 2 ^ k.
Proof.
  intros H. cbn [val].
  replace (2 ^ B) with (2 ^ (B - k) * 2 ^ k) by (rewrite <- Z.pow_add_r by lia; f_equal; lia).
  replace (x + 2 ^ (B - k) * 2 ^ k * val B t) with (x + (2 ^ (B - k) * val B t) * 2 ^ k) by ring.
  apply Z.mod_add. apply Z.pow_nonzero; lia.
Qed.
Lemma get0_land w k : 0 <= k <= B -> w <> [] -> Z.land (get w 0) (2 ^ k - 1) = val B w mod 2 ^ k.
Proof.
  intros H Hne. destruct w as [|x t]; [congruence|]. rewrite val_mod_low by exact H.
  apply land_mask. lia.
Qed.

Lemma shr_limbs_spec w k : 0 <= k <= B -> nrm B w ->
  val B (shr_limbs c k w) = val B w / 2 ^ k /\ nrm B (shr_limbs c k w) /\ length (shr_limbs c k w) = length w.
Proof.
  intros Hk. assert (Pk : 0 < 2 ^ k) by (apply pow2_pos; lia).
  assert (EB : 2 ^ B = 2 ^ (B - k) * 2 ^ k) by (rewrite <- Z.pow_add_r by lia; f_equal; lia).
  assert (PBk : 0 < 2 ^ (B - k)) by (apply pow2_pos; lia).
  induction w as [|x t IH]; intros Hn.
  - cbn [shr_limbs val nrm length]. rewrite Z.div_0_l by lia. auto.
  - destruct t as [|y t].
    + cbn [shr_limbs val nrm length]. rewrite Z.shiftr_div_pow2 by lia.
      rewrite !Z.mul_0_r, !Z.add_0_r. auto.
    + cbn [nrm] in Hn. destruct Hn as [Hx Hn]. destruct (IH Hn) as [Hv [Hnn Hl]].
      change (shr_limbs c k (x :: y :: t)) with
        (Z.lor (Z.shiftr x k) (Z.land (wrap C (Z.shiftl y (B - k))) (BMASK c)) :: shr_limbs c k (y :: t)).
      set (r := shr_limbs c k (y :: t)) in *.
      rewrite wrap_bmask, Z.shiftl_mul_pow2, Z.shiftr_div_pow2 by lia.
      assert (E1 : (y * 2 ^ (B - k)) mod 2 ^ B = (y mod 2 ^ k) * 2 ^ (B - k)).
      { rewrite EB. rewrite (Z.mul_comm (2 ^ (B - k)) (2 ^ k)). apply Z.mul_mod_distr_r; lia. }
      rewrite E1.
      assert (Hxk : 0 <= x / 2 ^ k < 2 ^ (B - k)).
      { split; [apply Z.div_pos; lia|]. apply Z.div_lt_upper_bound; lia. }
      rewrite lor_disjoint by lia.
      assert (Hr : 0 <= y mod 2 ^ k < 2 ^ k) by (apply Z.mod_pos_bound; lia).
      split; [|split].
      * change (val B (?a :: r)) with (a + 2 ^ B * val B r). rewrite Hv.
        change (val B (x :: y :: t)) with (x + 2 ^ B * val B (y :: t)).
        set (Y := val B (y :: t)).
        assert (EY : y mod 2 ^ k = Y mod 2 ^ k) by (unfold Y; rewrite val_mod_low by lia; reflexivity).
        rewrite EY.
        pose proof (Z.div_mod Y (2 ^ k) ltac:(lia)) as D.
        rewrite D at 3. set (q := Y / 2 ^ k). set (s := Y mod 2 ^ k).
        replace (x + 2 ^ B * (2 ^ k * q + s)) with (x + (2 ^ B * q + 2 ^ (B - k) * s) * 2 ^ k)
          by (rewrite EB; ring).
        rewrite Z.div_add by lia. ring.
      * destruct r as [|z r]; [cbn in Hl; discriminate|]. split; [|exact Hnn]. rewrite EB. nia.
      * cbn [length] in *. lia.
Qed.

Lemma fshr_spec w k : 0 <= k <= B -> nrm B w -> w <> [] ->
  exists r, fshr c w k = Some (val B w mod 2 ^ k, r) /\ val B r = val B w / 2 ^ k /\ nrm B r /\ length r = length w.
Proof.
  intros Hk Hn Hne. exists (shr_limbs c k w). split.
  - unfold fshr. replace ((0 <=? k) && (k <=? B)) with true by (symmetry; apply andb_true_iff; split; apply Z.leb_le; lia).
    rewrite get0_land by assumption. reflexivity.
  - apply shr_limbs_spec; assumption.
Qed.

Lemma fshr_canon w k : 0 <= k <= B -> canon B w -> w <> [] ->
  exists r, fshr c w k = Some (val B w mod 2 ^ k, r) /\ val B r = val B w / 2 ^ k /\ canon B r /\ length r = length w.
Proof.
  intros Hk Hc Hne. destruct (fshr_spec w k Hk (canon_nrm _ _ Hc) Hne) as [r [H1 [H2 [H3 H4]]]].
  exists r. split; [exact H1|]. split; [exact H2|]. split; [|exact H4].
  apply (nrm_canon B r (length w)); [lia|exact H3|exact H4|]. rewrite H2.
  pose proof (canon_val B w ltac:(lia) Hc). assert (1 <= 2 ^ k) by (pose proof (pow2_pos k ltac:(lia)); lia).
  split; [apply Z.div_pos; lia|]. apply Z.div_lt_upper_bound; nia.
Qed.

(** the first limbs of a normal list *)
Lemma nrm_skipn w m : nrm B w -> nrm B (skipn m w).
Proof.
  revert w. induction m as [|m IH]; intros w H; [exact H|]. destruct w as [|x t]; [exact I|].
  cbn [skipn]. apply IH. eapply nrm_tail; exact H.
Qed.
Lemma val_skipn w m : nrm B w -> (m < length w)%nat -> val B (skipn m w) = val B w / 2 ^ (B * Z.of_nat m).
Proof.
  revert w. induction m as [|m IH]; intros w H Hm.
  - cbn [skipn]. rewrite Z.mul_0_r, Z.pow_0_r, Z.div_1_r. reflexivity.
  - destruct w as [|x t]; [cbn in Hm; lia|]. cbn [skipn]. cbn [length] in Hm.
    destruct t as [|y t]; [cbn in Hm; lia|].
    cbn [nrm] in H. destruct H as [Hx H].
    rewrite IH by (try exact H; lia).
    change (val B (x :: y :: t)) with (x + 2 ^ B * val B (y :: t)).
    replace (B * Z.of_nat (S m)) with (B + B * Z.of_nat m) by lia.
    rewrite Z.pow_add_r by nia.
    rewrite <- Z.div_div by (try apply pow2_pos; try apply Z.pow_nonzero; nia).
    f_equal. rewrite (Z.mul_comm (2 ^ B)), Z.div_add, Z.div_small by lia. lia.
Qed.
Lemma canon_firstn w m : canon B w -> canon B (firstn m w).
Proof.
  intros H. revert m. induction H as [|x t Hx Ht IH]; intros [|m]; try constructor; [exact Hx|]. apply IH.
Qed.
Lemma canon_skipn w m : canon B w -> canon B (skipn m w).
Proof.
  intros H. revert m. induction H as [|x t Hx Ht IH]; intros [|m]; try constructor; try assumption. apply IH.
Qed.
Lemma canon_repeat0 n : canon B (repeat 0 n).
Proof. induction n as [|n IH]; constructor; [lia|exact IH]. Qed.
Lemma canon_app a b : canon B a -> canon B b -> canon B (a ++ b).
Proof. intros. apply Forall_app; split; assumption. Qed.

Lemma val_split w m : (m <= length w)%nat ->
  val B w = val B (firstn m w) + 2 ^ (B * Z.of_nat m) * val B (skipn m w).
Proof.
  intros H. rewrite <- (firstn_skipn m w) at 1. rewrite val_app by lia.
  rewrite firstn_length_le by exact H. reflexivity.
Qed.

(** general right shift *)
Lemma shr_spec w k : 0 <= k < B * Z.of_nat (length w) -> canon B w ->
  exists r, shr c w k = Some r /\ val B r = val B w / 2 ^ k /\ canon B r /\ length r = length w.
Proof.
  intros Hk Hc. unfold shr.
  set (m := Z.to_nat (k / B)).
  assert (Hq : 0 <= k / B) by (apply Z.div_pos; lia).
  assert (Hm : Z.of_nat m = k / B) by (unfold m; rewrite Z2Nat.id by lia; reflexivity).
  assert (HmL : (m < length w)%nat).
  { assert (k / B < Z.of_nat (length w)) by (apply Z.div_lt_upper_bound; lia). lia. }
  replace (m <? length w)%nat with true by (symmetry; apply Nat.ltb_lt; exact HmL).
  assert (Hn : 0 <= k mod B < B) by (apply Z.mod_pos_bound; lia).
  pose proof (canon_nrm _ _ (canon_skipn w m Hc)) as Hsn.
  destruct (shr_limbs_spec (skipn m w) (k mod B) ltac:(lia) Hsn) as [Hv [Hnn Hl]].
  eexists; split; [reflexivity|].
  assert (Ev : val B (shr_limbs c (k mod B) (skipn m w) ++ repeat 0 m) = val B w / 2 ^ k).
  { rewrite val_app, val_repeat0, Z.mul_0_r, Z.add_0_r by lia.
    rewrite Hv, val_skipn by (try apply canon_nrm; assumption).
    rewrite Z.div_div by (try apply pow2_pos; try apply Z.pow_nonzero; nia).
    rewrite <- Z.pow_add_r by nia. f_equal. f_equal. rewrite Hm. symmetry. apply Z.div_mod. lia. }
  assert (El : length (shr_limbs c (k mod B) (skipn m w) ++ repeat 0 m) = length w).
  { rewrite app_length, Hl, skipn_length, repeat_length. lia. }
  split; [exact Ev|]. split; [|exact El].
  apply canon_app; [|apply canon_repeat0].
  apply (nrm_canon B _ (length (skipn m w))); [lia|exact Hnn|exact Hl|].
  rewrite Hv. pose proof (canon_val B _ ltac:(lia) (canon_skipn w m Hc)) as R.
  assert (1 <= 2 ^ (k mod B)) by (pose proof (pow2_pos (k mod B) ltac:(lia)); lia).
  split; [apply Z.div_pos; lia|]. apply Z.div_lt_upper_bound; nia.
Qed.

(** ** left shifts *)
Lemma shl_limbs_spec w k prev : 0 <= k <= B -> nrm B w -> w <> [] -> 0 <= prev < 2 ^ B ->
  0 <= last w 0 * 2 ^ k < 2 ^ (C - 1) ->
  val B (shl_limbs c k prev w) = val B w * 2 ^ k + prev / 2 ^ (B - k)
  /\ nrm B (shl_limbs c k prev w) /\ length (shl_limbs c k prev w) = length w.
Proof.
  intros Hk. assert (Pk : 0 < 2 ^ k) by (apply pow2_pos; lia).
  assert (EB : 2 ^ B = 2 ^ k * 2 ^ (B - k)) by (rewrite <- Z.pow_add_r by lia; f_equal; lia).
  assert (PBk : 0 < 2 ^ (B - k)) by (apply pow2_pos; lia).
  revert prev. induction w as [|x t IH]; intros prev Hn Hne Hp Htop; [congruence|].
  assert (Hpk : 0 <= prev / 2 ^ (B - k) < 2 ^ k).
  { split; [apply Z.div_pos; lia|]. apply Z.div_lt_upper_bound; lia. }
  destruct t as [|y t].
  - cbn [shl_limbs val nrm length last] in *. rewrite Z.shiftl_mul_pow2, Z.shiftr_div_pow2 by lia.
    rewrite wrap_id by lia. rewrite lor_disjoint' by lia.
    rewrite !Z.mul_0_r, !Z.add_0_r. split; [ring|]. auto.
  - cbn [nrm] in Hn. destruct Hn as [Hx Hn].
    destruct (IH x Hn ltac:(discriminate) Hx Htop) as [Hv [Hnn Hl]].
    change (shl_limbs c k prev (x :: y :: t)) with
      (Z.lor (Z.land (wrap C (Z.shiftl x k)) (BMASK c)) (Z.shiftr prev (B - k)) :: shl_limbs c k x (y :: t)).
    set (r := shl_limbs c k x (y :: t)) in *.
    rewrite wrap_bmask, Z.shiftl_mul_pow2, Z.shiftr_div_pow2 by lia.
    assert (E1 : (x * 2 ^ k) mod 2 ^ B = (x mod 2 ^ (B - k)) * 2 ^ k).
    { rewrite EB. rewrite (Z.mul_comm (2 ^ k) (2 ^ (B - k))). apply Z.mul_mod_distr_r; lia. }
    rewrite E1, lor_disjoint' by lia.
    assert (Hr : 0 <= x mod 2 ^ (B - k) < 2 ^ (B - k)) by (apply Z.mod_pos_bound; lia).
    split; [|split].
    + change (val B (?a :: r)) with (a + 2 ^ B * val B r). rewrite Hv.
      change (val B (x :: y :: t)) with (x + 2 ^ B * val B (y :: t)).
      pose proof (Z.div_mod x (2 ^ (B - k)) ltac:(lia)) as D.
      set (q := x / 2 ^ (B - k)) in *. set (s := x mod 2 ^ (B - k)) in *.
      rewrite D, EB. ring.
    + destruct r as [|z r]; [cbn in Hl; discriminate|]. split; [|exact Hnn]. rewrite EB. nia.
    + cbn [length] in *. lia.
Qed.

Lemma shl_all_spec x y t k : 0 <= k <= B -> nrm B (x :: y :: t) ->
  0 <= last (y :: t) 0 * 2 ^ k < 2 ^ (C - 1) ->
  val B (shl_all c k (x :: y :: t)) = val B (x :: y :: t) * 2 ^ k
  /\ nrm B (shl_all c k (x :: y :: t)) /\ length (shl_all c k (x :: y :: t)) = length (x :: y :: t).
Proof.
  intros Hk Hn Htop. cbn [nrm] in Hn. destruct Hn as [Hx Hn].
  destruct (shl_limbs_spec (y :: t) k x Hk Hn ltac:(discriminate) Hx Htop) as [Hv [Hnn Hl]].
  cbn [shl_all]. set (r := shl_limbs c k x (y :: t)) in *.
  rewrite wrap_bmask, Z.shiftl_mul_pow2 by lia.
  assert (EB : 2 ^ B = 2 ^ k * 2 ^ (B - k)) by (rewrite <- Z.pow_add_r by lia; f_equal; lia).
  assert (PBk : 0 < 2 ^ (B - k)) by (apply pow2_pos; lia).
  assert (Pk : 0 < 2 ^ k) by (apply pow2_pos; lia).
  split; [|split].
  - change (val B (?a :: r)) with (a + 2 ^ B * val B r). rewrite Hv.
    change (val B (x :: y :: t)) with (x + 2 ^ B * val B (y :: t)).
    pose proof (Z.div_mod (x * 2 ^ k) (2 ^ B) ltac:(lia)) as D.
    assert (E : x * 2 ^ k / 2 ^ B = x / 2 ^ (B - k)).
    { rewrite EB. rewrite (Z.mul_comm x). apply Z.div_mul_cancel_l; lia. }
    rewrite E in D. set (Y := val B (y :: t)).
    transitivity ((2 ^ B * (x / 2 ^ (B - k)) + (x * 2 ^ k) mod 2 ^ B) + 2 ^ B * Y * 2 ^ k); [ring|].
    rewrite <- D. ring.
  - destruct r as [|z r]; [cbn in Hl; discriminate|]. split; [|exact Hnn].
    apply Z.mod_pos_bound. lia.
  - cbn [length] in *. lia.
Qed.

Lemma fshl_spec w k : 0 <= k <= B -> (2 <= length w)%nat -> nrm B w ->
  0 <= last w 0 * 2 ^ k < 2 ^ (C - 1) ->
  exists r, fshl c w k = Some r /\ val B r = val B w * 2 ^ k /\ nrm B r /\ length r = length w.
Proof.
  intros Hk Hl Hn Ht. destruct w as [|x [|y t]]; cbn in Hl; try lia.
  exists (shl_all c k (x :: y :: t)). split.
  - unfold fshl. replace ((0 <=? k) && (k <=? B) && (2 <=? length (x :: y :: t))%nat) with true; [reflexivity|].
    symmetry. rewrite !andb_true_iff, !Z.leb_le, Nat.leb_le. cbn [length]. lia.
  - apply shl_all_spec; assumption.
Qed.

Lemma fshl_canon w k : 0 <= k <= B -> (2 <= length w)%nat -> canon B w ->
  val B w * 2 ^ k < 2 ^ (B * Z.of_nat (length w)) ->
  exists r, fshl c w k = Some r /\ val B r = val B w * 2 ^ k /\ canon B r /\ length r = length w.
Proof.
  intros Hk Hl Hc Hv. 
  assert (Hne : w <> []) by (destruct w; [cbn in Hl; lia|discriminate]).
  pose proof (canon_nrm _ _ Hc) as Hn.
  pose proof (canon_val B w ltac:(lia) Hc) as Hr.
  assert (Pk : 0 < 2 ^ k) by (apply pow2_pos; lia).
  assert (Ht : 0 <= last w 0 * 2 ^ k < 2 ^ B).
  { pose proof (canon_last c HB w Hc). split; [nia|].
    rewrite (nrm_last B w) by (try assumption; lia).
    set (E := 2 ^ (B * Z.of_nat (length w - 1))).
    assert (PE : 0 < E) by (apply pow2_pos; nia).
    replace (B * Z.of_nat (length w)) with (B + B * Z.of_nat (length w - 1)) in Hv by (rewrite Nat2Z.inj_sub by lia; lia).
    rewrite Z.pow_add_r in Hv by nia. fold E in Hv.
    pose proof (Z.mul_div_le (val B w) E PE). 
    assert (val B w / E * 2 ^ k * E < 2 ^ B * E) by nia. nia. }
  assert (2 ^ B <= 2 ^ (C - 1)) by (apply pow2_le; lia).
  destruct (fshl_spec w k Hk Hl Hn ltac:(lia)) as [r [H1 [H2 [H3 H4]]]].
  exists r. split; [exact H1|]. split; [exact H2|]. split; [|exact H4].
  apply (nrm_canon B r (length w)); [lia|exact H3|exact H4|]. rewrite H2. nia.
Qed.

Lemma canon_high_zero w m : canon B w -> (m <= length w)%nat -> val B w < 2 ^ (B * Z.of_nat m) ->
  val B (firstn m w) = val B w.
Proof.
  intros Hc Hm Hv. rewrite (val_split w m Hm) in Hv |- *.
  pose proof (canon_val B _ ltac:(lia) (canon_firstn w m Hc)).
  pose proof (canon_val B _ ltac:(lia) (canon_skipn w m Hc)).
  assert (val B (skipn m w) = 0) by nia. nia.
Qed.

Lemma shl_spec w k : 0 <= k -> canon B w -> (2 <= length w)%nat ->
  k < B * Z.of_nat (length w) ->
  val B w * 2 ^ k < 2 ^ (B * Z.of_nat (length w)) ->
  exists r, shl c w k = Some r /\ val B r = val B w * 2 ^ k /\ canon B r /\ length r = length w.
Proof.
  intros Hk Hc Hl2 HkL Hv. unfold shl.
  set (m := Z.to_nat (k / B)).
  assert (Hq : 0 <= k / B) by (apply Z.div_pos; lia).
  assert (Hm : Z.of_nat m = k / B) by (unfold m; rewrite Z2Nat.id by lia; reflexivity).
  assert (HmL : (m < length w)%nat).
  { assert (k / B < Z.of_nat (length w)) by (apply Z.div_lt_upper_bound; lia). lia. }
  replace (m <? length w)%nat with true by (symmetry; apply Nat.ltb_lt; exact HmL).
  assert (Hn : 0 <= k mod B < B) by (apply Z.mod_pos_bound; lia).
  set (n := k mod B) in *.
  pose proof (Z.div_mod k B ltac:(lia)) as Dk. rewrite <- Hm in Dk. fold n in Dk.
  set (u := firstn (length w - m) w).
  pose proof (canon_val B w ltac:(lia) Hc) as Rw.
  assert (Pn : 0 < 2 ^ n) by (apply pow2_pos; lia).
  assert (Pm : 0 < 2 ^ (B * Z.of_nat m)) by (apply pow2_pos; nia).
  assert (Hvn : val B w * 2 ^ n < 2 ^ (B * Z.of_nat (length w - m))).
  { replace (B * Z.of_nat (length w)) with (B * Z.of_nat m + B * Z.of_nat (length w - m)) in Hv
      by (rewrite Nat2Z.inj_sub by lia; ring).
    rewrite Dk in Hv. rewrite !Z.pow_add_r in Hv by nia. nia. }
  assert (Hu : val B u = val B w) by (apply canon_high_zero; [exact Hc|lia|nia]).
  pose proof (canon_firstn w (length w - m) Hc) as Hcu. fold u in Hcu.
  assert (Hul : length u = (length w - m)%nat) by (unfold u; rewrite firstn_length_le; lia).
  assert (Key : val B (shl_all c n u) = val B u * 2 ^ n /\ canon B (shl_all c n u) /\ length (shl_all c n u) = length u).
  { destruct u as [|x [|y t]] eqn:Eu.
    - cbn in Hul. lia.
    - cbn [length] in Hul. cbn [shl_all shl_limbs val length].
      rewrite wrap_bmask, Z.shiftl_mul_pow2 by lia.
      cbn [val] in Hu. rewrite Z.mul_0_r, Z.add_0_r in Hu.
      rewrite <- Hul in Hvn. replace (B * Z.of_nat 1) with B in Hvn by lia.
      rewrite Z.mod_small by nia. split; [lia|]. split; [|reflexivity].
      constructor; [nia|constructor].
    - destruct (fshl_canon (x :: y :: t) n ltac:(lia) ltac:(cbn; lia) Hcu) as [r [H1 [H2 [H3 H4]]]].
      + rewrite Hu, Hul. exact Hvn.
      + unfold fshl in H1. destruct (_ && _) in H1; [|discriminate]. injection H1 as <-. auto. }
  destruct Key as [K1 [K2 K3]].
  eexists; split; [reflexivity|]. split; [|split].
  - rewrite val_app, val_repeat0, repeat_length, K1, Hu by lia. rewrite Dk at 1.
    rewrite Z.pow_add_r by nia. ring.
  - apply canon_app; [apply canon_repeat0|exact K2].
  - rewrite app_length, repeat_length, K3, Hul. lia.
Qed.

Lemma mod2m_spec w m : 0 <= m < B * Z.of_nat (length w) -> canon B w ->
  exists r, mod2m c w m = Some r /\ val B r = val B w mod 2 ^ m /\ canon B r /\ length r = length w.
Proof.
  intros Hm Hc. unfold mod2m. set (wd := Z.to_nat (m / B)). set (bt := m mod B).
  assert (Hq : 0 <= m / B) by (apply Z.div_pos; lia).
  assert (Hwd : Z.of_nat wd = m / B) by (unfold wd; rewrite Z2Nat.id by lia; reflexivity).
  assert (HL : (wd < length w)%nat).
  { assert (m / B < Z.of_nat (length w)) by (apply Z.div_lt_upper_bound; lia). lia. }
  replace (wd <? length w)%nat with true by (symmetry; apply Nat.ltb_lt; exact HL).
  assert (Hbt : 0 <= bt < B) by (apply Z.mod_pos_bound; lia).
  pose proof (Z.div_mod m B ltac:(lia)) as Dm. rewrite <- Hwd in Dm. fold bt in Dm.
  rewrite land_mask by lia.
  eexists; split; [reflexivity|].
  pose proof (canon_skipn w wd Hc) as Hcs. rewrite get_nth in Hcs by exact HL.
  apply Forall_cons_iff in Hcs. destruct Hcs as [Hx Hrest].
  assert (Pbt : 0 < 2 ^ bt) by (apply pow2_pos; lia).
  assert (Pw : 0 < 2 ^ (B * Z.of_nat wd)) by (apply pow2_pos; nia).
  assert (Hlow : 0 <= get w wd mod 2 ^ bt < 2 ^ bt) by (apply Z.mod_pos_bound; lia).
  split; [|split].
  - rewrite val_app by lia. rewrite firstn_length_le by lia. cbn [val].
    rewrite val_repeat0, Z.mul_0_r, Z.add_0_r.
    rewrite (val_split w wd) by lia. rewrite get_nth by exact HL.
    rewrite Dm. rewrite Z.pow_add_r by nia.
    pose proof (canon_val B _ ltac:(lia) (canon_firstn w wd Hc)) as Rf.
    rewrite firstn_length_le in Rf by lia.
    set (F := val B (firstn wd w)) in *. set (E := 2 ^ (B * Z.of_nat wd)) in *.
    rewrite Z.rem_mul_r by lia.
    rewrite (Z.mul_comm E (val B (get w wd :: skipn (S wd) w))).
    rewrite Z.mod_add by lia. rewrite (Z.mod_small F) by lia. rewrite Z.div_add, Z.div_small by lia.
    rewrite Z.add_0_l, val_mod_low by lia. ring.
  - apply canon_app; [apply canon_firstn; exact Hc|]. constructor; [|apply canon_repeat0].
    assert (2 ^ bt <= 2 ^ B) by (apply pow2_le; lia). lia.
  - rewrite app_length, firstn_length_le by lia. cbn [length]. rewrite repeat_length. lia.
Qed.

Lemma testbit_val w n : 0 <= n < B * Z.of_nat (length w) -> canon B w ->
  Z.testbit (val B w) n = Z.testbit (get w (Z.to_nat (n / B))) (n mod B).
Proof.
  intros Hn Hc. set (wd := Z.to_nat (n / B)).
  assert (Hq : 0 <= n / B) by (apply Z.div_pos; lia).
  assert (Hwd : Z.of_nat wd = n / B) by (unfold wd; rewrite Z2Nat.id by lia; reflexivity).
  assert (HL : (wd < length w)%nat).
  { assert (n / B < Z.of_nat (length w)) by (apply Z.div_lt_upper_bound; lia). lia. }
  assert (Hbt : 0 <= n mod B < B) by (apply Z.mod_pos_bound; lia).
  pose proof (Z.div_mod n B ltac:(lia)) as Dn. rewrite <- Hwd in Dn.
  rewrite Dn at 1. replace (B * Z.of_nat wd + n mod B) with (n mod B + B * Z.of_nat wd) by lia.
  rewrite <- Z.div_pow2_bits by nia.
  rewrite <- val_skipn by (try apply canon_nrm; assumption).
  rewrite get_nth by exact HL.
  rewrite <- (Z.mod_pow2_bits_low _ B) by lia.
  rewrite val_mod_low by lia.
  rewrite Z.mod_pow2_bits_low by lia. reflexivity.
Qed.

Lemma bit_spec w n : 0 <= n < B * Z.of_nat (length w) -> canon B w ->
  bit c w n = Some (if Z.testbit (val B w) n then 1 else 0).
Proof.
  intros Hn Hc. rewrite testbit_val by assumption. unfold bit.
  set (wd := Z.to_nat (n / B)).
  assert (Hq : 0 <= n / B) by (apply Z.div_pos; lia).
  assert (HL : (wd < length w)%nat).
  { assert (n / B < Z.of_nat (length w)) by (apply Z.div_lt_upper_bound; lia).
    assert (Z.of_nat wd = n / B) by (unfold wd; rewrite Z2Nat.id by lia; reflexivity). lia. }
  rewrite (nth_error_nth' w 0 HL). cbn [bind]. fold (get w wd).
  pose proof (canon_skipn w wd Hc) as Hcs. rewrite get_nth in Hcs by exact HL.
  apply Forall_cons_iff in Hcs. destruct Hcs as [Hx Hrest].
  rewrite land_pow2_testbit; [reflexivity| |lia].
  apply Z.mod_pos_bound. lia.
Qed.

(** parity is the parity of the value for non-negative normal numbers *)
Lemma parity_spec w : w <> [] -> 0 <= get w 0 -> parity w = val B w mod 2.
Proof.
  intros Hne H. unfold parity. destruct w as [|x t]; [congruence|]. cbn [get nth] in *.
  unfold get in *. cbn [nth] in *.
  rewrite Z.rem_mod_nonneg by lia. change 2 with (2 ^ 1). rewrite val_mod_low by lia. reflexivity.
Qed.

End WithCfg.
