(** Streaming: the object state after any bytes since the last reset; hash = SHA-2 of those bytes. *)
From Verif Require Import Base.Word Base.Arr Model.Sha2Tables Model.Sha2 Spec.Bytes Spec.GcmSpec Spec.Sha2Spec Proof.AesBase Proof.GcmBase Proof.Sha2Block.

(** ** cutting *)
Lemma cut_concat n : (0 < n)%nat -> forall bs f, Forall (fun b => length b = n) bs -> (length (concat bs) <= f)%nat -> cut f n (concat bs) = bs.
Proof.
  intros Hn. induction bs as [|b bs IH]; intros f H Hf; [destruct f; reflexivity|]. inversion H; subst. cbn [concat] in *.
  rewrite app_length in Hf. destruct f as [|f]; [lia|]. cbn [cut].
  destruct b as [|x b]; [cbn in Hn; lia|]. cbn [app]. change (x :: b ++ concat bs) with ((x :: b) ++ concat bs).
  rewrite firstn_app, skipn_app, Nat.sub_diag, firstn_all, skipn_all, firstn_O, skipn_O, app_nil_r. cbn [app]. f_equal. apply IH; [assumption|].
  cbn [length] in Hf. lia.
Qed.
Lemma concat_len n (bs : list (list Z)) : Forall (fun b => length b = n) bs -> length (concat bs) = (length bs * n)%nat.
Proof. induction 1 as [|b bs H _ IH]; [reflexivity|]. cbn [concat length]. rewrite app_length, H, IH. lia. Qed.
Lemma i2osp_app a b v : i2osp v (a + b) = i2osp (v / 256 ^ Z.of_nat b) a ++ i2osp v b.
Proof.
  revert v. induction b as [|b IH]; intros v.
  - rewrite Nat.add_0_r. cbn [i2osp]. change (Z.of_nat 0) with 0. rewrite Z.pow_0_r, Z.div_1_r, app_nil_r. reflexivity.
  - rewrite Nat.add_succ_r. cbn [i2osp]. rewrite IH, app_assoc. rewrite Z.div_div by (try lia; apply Z.pow_pos_nonneg; lia).
    rewrite Nat2Z.inj_succ, Z.pow_succ_r by lia. reflexivity.
Qed.
Lemma nth_i2osp n : forall v i, (i < n)%nat -> nth i (i2osp v n) 0 = v / 2 ^ (8 * (Z.of_nat (n - 1) - Z.of_nat i)) mod 256.
Proof.
  induction n as [|n IH]; intros v i Hi; [lia|]. cbn [i2osp]. destruct (Nat.eq_dec i n) as [->|N].
  - rewrite app_nth2 by (rewrite i2osp_length; lia). rewrite i2osp_length, Nat.sub_diag. cbn [nth].
    replace (8 * _) with 0 by lia. rewrite Z.pow_0_r, Z.div_1_r. reflexivity.
  - rewrite app_nth1 by (rewrite i2osp_length; lia). rewrite IH by lia. rewrite Z.div_div by (try lia; apply Z.pow_pos_nonneg; lia).
    replace (8 * (Z.of_nat (S n - 1) - Z.of_nat i)) with (8 + 8 * (Z.of_nat (n - 1) - Z.of_nat i)) by lia.
    rewrite Z.pow_add_r by lia. reflexivity.
Qed.
Lemma nth_flat_map (f : Z -> list Z) n : (0 < n)%nat -> forall l, (forall x, length (f x) = n) -> forall i, (i < n * length l)%nat ->
  nth i (flat_map f l) 0 = nth (i mod n) (f (nth (i / n) l 0)) 0.
Proof.
  intros Hn l Hf. induction l as [|x l IH]; intros i Hi; [cbn in Hi; lia|]. cbn [flat_map]. destruct (lt_dec i n) as [L|L].
  - rewrite app_nth1 by (rewrite Hf; lia). rewrite Nat.mod_small, Nat.div_small by lia. reflexivity.
  - rewrite app_nth2 by (rewrite Hf; lia). rewrite Hf. cbn [length] in Hi. rewrite IH by lia.
    replace i with (i - n + 1 * n)%nat at 3 4 by lia. rewrite Nat.mod_add, Nat.div_add by lia. rewrite Nat.add_1_r. reflexivity.
Qed.
Lemma flat_map_len (f : Z -> list Z) n l : (forall x, length (f x) = n) -> length (flat_map f l) = (n * length l)%nat.
Proof. intros H. induction l as [|x l IH]; cbn [flat_map length]; [lia|]. rewrite app_length, H, IH. lia. Qed.
Lemma byte_lor a b : 0 <= b < 256 -> Z.lor (a * 256) b = 256 * a + b.
Proof. intros H. change (a * 256) with (a * 2 ^ 8). rewrite lor_disjoint' by (try exact H; lia). change (2 ^ 8) with 256. lia. Qed.

Section Stream.
Variables (C : sha) (P : sha_par).
Hypothesis HM : matches C P.
Let wb := wbytes P.
Lemma Wwb : W P = 8 * Z.of_nat wb. Proof. unfold wb, wbytes. destruct (mW2 _ _ HM) as [-> | ->]; reflexivity. Qed.
Lemma wb_pos : (4 <= wb <= 8)%nat. Proof. unfold wb, wbytes. destruct (mW2 _ _ HM) as [-> | ->]; vm_compute; lia. Qed.
Lemma pow_wb : 256 ^ Z.of_nat wb = 2 ^ W P. Proof. rewrite Wwb. rewrite Z.pow_mul_r by lia. reflexivity. Qed.
Lemma pow_split : exists c, 0 < c /\ 2 ^ W P = 16 * W P * c.
Proof. destruct (mW2 _ _ HM) as [-> | ->]; [exists (2 ^ 23)|exists (2 ^ 54)]; split; reflexivity. Qed.

(** the length arithmetic *)
Lemma cnt_ok l : (l mod 2 ^ W P) / W P mod 16 = l / W P mod 16.
Proof.
  destruct pow_split as [c [Hc E]]. pose proof (wpos C P HM) as Hw. pose proof (pow2_pos (W P) ltac:(lia)) as Hp.
  rewrite (Z.mod_eq l) by lia. rewrite E at 1. replace (l - 16 * W P * c * (l / 2 ^ W P)) with (l + - (16 * c * (l / 2 ^ W P)) * W P) by ring.
  rewrite Z.div_add by lia. replace (- (16 * c * (l / 2 ^ W P))) with (- (c * (l / 2 ^ W P)) * 16) by ring. apply Z.mod_add. lia.
Qed.
Lemma blk_ok l : (l mod 2 ^ W P) mod (16 * W P) = l mod (16 * W P).
Proof.
  destruct pow_split as [c [Hc E]]. pose proof (wpos C P HM) as Hw. pose proof (pow2_pos (W P) ltac:(lia)) as Hp.
  rewrite (Z.mod_eq l (2 ^ W P)) by lia. rewrite E at 1. replace (l - 16 * W P * c * (l / 2 ^ W P)) with (l + - (c * (l / 2 ^ W P)) * (16 * W P)) by ring.
  apply Z.mod_add. lia.
Qed.

Definition blen (m : list Z) : Z := 8 * Z.of_nat (length m).
Definition shape (m : list Z) (bs ws : list (list Z)) (r : list Z) : Prop :=
  m = concat bs ++ concat ws ++ r /\ Forall (fun b => length b = (16 * wb)%nat) bs /\ Forall (fun x => length x = wb) ws /\ (length ws < 16)%nat /\ (length r < wb)%nat.
(** the state of an object that has absorbed [m] since its last reset *)
Record inv (m : list Z) (s : hst) : Prop := mkinv {
  i_bytes : bytes m;
  i_l0 : h_len0 s = blen m mod 2 ^ W P;
  i_l1 : h_len1 s = blen m / 2 ^ W P mod 2 ^ W P;
  i_wl : length (h_w s) = rounds P; i_w : Forall (inw P) (h_w s);
  i_hl : length (h_h s) = 8%nat; i_h : Forall (inw P) (h_h s);
  i_ex : exists bs ws r, shape m bs ws r /\ h_h s = fold_left (compress P) (map (words_of P) bs) (H0 P)
      /\ firstn (length ws) (h_w s) = map os2ip ws /\ nth (length ws) (h_w s) 0 mod 256 ^ Z.of_nat (length r) = os2ip r }.
Lemma shape_len m bs ws r : shape m bs ws r -> blen m = W P * (16 * Z.of_nat (length bs) + Z.of_nat (length ws)) + 8 * Z.of_nat (length r).
Proof.
  intros [-> [Hb [Hw _]]]. unfold blen. rewrite !app_length, (concat_len _ _ Hb), (concat_len _ _ Hw), Wwb.
  rewrite !Nat2Z.inj_add, !Nat2Z.inj_mul. ring.
Qed.
Lemma shape_cnt m bs ws r : shape m bs ws r -> blen m / W P mod 16 = Z.of_nat (length ws).
Proof.
  intros H. rewrite (shape_len _ _ _ _ H). destruct H as [_ [_ [_ [H1 H2]]]]. pose proof Wwb as EW. pose proof wb_pos.
  rewrite (Z.mul_comm (W P)). rewrite Z.div_add_l by lia. rewrite (Z.div_small (8 * _)) by lia.
  rewrite Z.add_0_r, Z.add_comm, Z.mul_comm, Z.mod_add, Z.mod_small by lia. reflexivity.
Qed.

Definition fits (bd : build) (n : Z) : Prop := match bd with Debug => 8 * n < 2 ^ W P | Release => True end.
Lemma fits_le bd a b : a <= b -> fits bd b -> fits bd a.
Proof. destruct bd; unfold fits; [intros; lia|trivial]. Qed.

(** the length counters *)
Lemma counters bd m b s : inv m s -> fits bd (Z.of_nat (length m) + 1) ->
  exists l0 l1, uadd bd (sW C) (h_len0 s) 8 = Some l0 /\ (if l0 =? 0 then uadd bd (sW C) (h_len1 s) 1 else Some (h_len1 s)) = Some l1
    /\ l0 = blen (m ++ [b]) mod 2 ^ W P /\ l1 = blen (m ++ [b]) / 2 ^ W P mod 2 ^ W P.
Proof.
  intros I F. rewrite (i_l0 _ _ I), (i_l1 _ _ I), (mW _ _ HM). pose proof (wpos C P HM) as Hw. pose proof (pow2_pos (W P) ltac:(lia)) as Hp.
  assert (E : blen (m ++ [b]) = blen m + 8) by (unfold blen; rewrite app_length; cbn [length]; lia). rewrite E.
  assert (L : 0 <= blen m) by (unfold blen; lia). destruct bd; unfold fits in F; unfold uadd.
  - assert (B : blen m + 8 < 2 ^ W P) by (unfold blen; lia). rewrite (Z.mod_small (blen m)) by lia. rewrite chku_ok by lia.
    exists (blen m + 8), (blen m / 2 ^ W P mod 2 ^ W P). split; [reflexivity|]. destruct (Z.eqb_spec (blen m + 8) 0); [lia|].
    split; [reflexivity|]. rewrite Z.mod_small by lia. rewrite !(Z.div_small (blen m)), (Z.div_small (blen m + 8)) by lia. auto.
  - exists ((blen m + 8) mod 2 ^ W P). unfold wrapu. rewrite Zplus_mod_idemp_l.
    assert (D8 : exists t, 2 ^ W P = 8 * t /\ 0 < t) by (destruct (mW2 _ _ HM) as [-> | ->]; [exists (2 ^ 29)|exists (2 ^ 61)]; split; reflexivity).
    destruct D8 as [t [Dt Tp]]. set (M := 2 ^ W P) in *. clearbody M.
    pose proof (Z.div_mod (blen m) M ltac:(lia)) as DM. pose proof (Z.mod_pos_bound (blen m) M ltac:(lia)) as RM.
    set (q := blen m / M) in *. set (r := blen m mod M) in *.
    assert (R8 : exists u, r = 8 * u) by (exists (Z.of_nat (length m) - t * q); unfold blen in *; rewrite Dt in *; lia). destruct R8 as [u Hu].
    assert (CASES : r + 8 < M \/ r + 8 = M) by lia. destruct CASES as [G|G].
    + assert (Q1 : (blen m + 8) mod M = r + 8) by (apply (mod_uniq _ q); lia). assert (Q2 : (blen m + 8) / M = q) by (apply (div_uniq _ _ _ (r + 8)); lia).
      rewrite Q1, Q2. destruct (Z.eqb_spec (r + 8) 0); [lia|]. exists (q mod M). auto.
    + assert (Q1 : (blen m + 8) mod M = 0) by (apply (mod_uniq _ (q + 1)); lia). assert (Q2 : (blen m + 8) / M = q + 1) by (apply (div_uniq _ _ _ 0); lia).
      rewrite Q1, Q2. rewrite Z.eqb_refl. exists ((q mod M + 1) mod M). rewrite Zplus_mod_idemp_l. auto.
Qed.
Lemma compress_len_inw h blk : length h = 8%nat -> length (fold_left (step P) (combine (K P) (schedule P (rounds P - 16) blk)) h) = 8%nat.
Proof.
  generalize (combine (K P) (schedule P (rounds P - 16) blk)). intros l. revert h. induction l as [|kw l IH]; intros h H; [exact H|]. cbn [fold_left]. apply IH.
  do 8 (destruct h as [|? h]; [discriminate|]). destruct h; [reflexivity|discriminate].
Qed.
Lemma process_ok bd m s b : inv m s -> is_byte b -> fits bd (Z.of_nat (length m) + 1) -> exists s', process C bd s b = Some s' /\ inv (m ++ [b]) s'.
Proof.
  intros I Hb F. destruct (counters bd m b s I F) as [l0 [l1 [E0 [E1 [V0 V1]]]]].
  destruct (i_ex _ _ I) as [bs [ws [r [SH [Hh [Hw Hr]]]]]]. pose proof wb_pos as WB. pose proof Wwb as EW. pose proof (wpos C P HM) as Hw0.
  unfold process. rewrite E0. cbn [bind]. rewrite E1. cbn [bind]. eexists. split; [reflexivity|].
  assert (TST : l0 mod (16 * W P) = blen (m ++ [b]) mod (16 * W P)) by (rewrite V0; apply blk_ok).
  rewrite (mW _ _ HM), (i_l0 _ _ I), cnt_ok, (shape_cnt _ _ _ _ SH), Nat2Z.id. rewrite TST. clear TST.
  set (q := length ws) in *. unfold at_, wrapu.
  set (x := nth q (h_w s) 0) in *. assert (X : inw P x) by (apply Forall_nth_ok; [apply (i_w _ _ I)|apply (zero_inw C P HM)]).
  assert (WV : Z.lor (Z.shiftl x 8 mod 2 ^ W P) (Z.land b 255) = (256 * x + b) mod 2 ^ W P).
  { rewrite land255, (Z.mod_small b) by exact Hb. rewrite Z.shiftl_mul_pow2 by lia. change (2 ^ 8) with 256.
    assert (D : 2 ^ W P = 2 ^ (W P - 8) * 256) by (change 256 with (2 ^ 8); rewrite <- Z.pow_add_r by lia; f_equal; lia).
    pose proof (pow2_pos (W P - 8) ltac:(lia)). rewrite D. rewrite Z.mul_mod_distr_r by lia. rewrite byte_lor by exact Hb.
    symmetry. apply (mod_uniq _ (x / 2 ^ (W P - 8))).
    - rewrite (Z.mod_eq x) by lia. ring.
    - pose proof (Z.mod_pos_bound x (2 ^ (W P - 8)) ltac:(lia)). unfold is_byte in Hb. lia. }
  rewrite WV. clear WV. set (x' := (256 * x + b) mod 2 ^ W P). assert (X' : inw P x') by (apply (mod_inw C P HM)).
  set (w' := aset (h_w s) q x'). assert (WL : length w' = rounds P) by (unfold w'; rewrite aset_length; apply (i_wl _ _ I)).
  assert (WF : Forall (inw P) w') by (apply Forall_aset; [apply (i_w _ _ I)|exact X']).
  destruct SH as [Em [Fb [Fw [Lw Lr]]]]. fold q in Lw. pose proof (mR2 _ _ HM) as R2.
  assert (FN : firstn (S q) w' = map os2ip ws ++ [x']) by (unfold w'; rewrite firstn_aset by (rewrite (i_wl _ _ I); lia); rewrite Hw; reflexivity).
  assert (XR : x' mod 256 ^ Z.of_nat (length (r ++ [b])) = os2ip (r ++ [b])).
  { rewrite os2ip_snoc, <- Hr. rewrite app_length. cbn [length]. replace (Z.of_nat (length r + 1)) with (1 + Z.of_nat (length r)) by lia.
    rewrite Z.pow_add_r by lia. change (256 ^ 1) with 256. unfold x'.
    assert (D : exists c, 2 ^ W P = c * (256 * 256 ^ Z.of_nat (length r)) /\ 0 < c).
    { exists (256 ^ (Z.of_nat wb - 1 - Z.of_nat (length r))). rewrite <- pow_wb. split; [|apply Z.pow_pos_nonneg; lia].
      replace (256 * 256 ^ Z.of_nat (length r)) with (256 ^ (1 + Z.of_nat (length r))) by (rewrite Z.pow_add_r by lia; reflexivity). rewrite <- Z.pow_add_r by lia. f_equal. lia. }
    destruct D as [c [D Dc]]. set (A := 256 ^ Z.of_nat (length r)) in *. assert (0 < A) by (apply Z.pow_pos_nonneg; lia). clearbody A.
    rewrite D. rewrite (Z.mod_eq _ (c * (256 * A))) by lia.
    replace (256 * x + b - c * (256 * A) * ((256 * x + b) / (c * (256 * A)))) with (256 * x + b + - (c * ((256 * x + b) / (c * (256 * A)))) * (256 * A)) by ring.
    rewrite Z.mod_add by lia. apply (mod_uniq _ (x / A)).
    - rewrite (Z.mod_eq x) by lia. ring.
    - pose proof (Z.mod_pos_bound x A ltac:(lia)). unfold is_byte in Hb. lia. }
  assert (BM : bytes (m ++ [b])) by (apply Forall_app; split; [apply (i_bytes _ _ I)|repeat constructor; apply Hb]).
  assert (LB : (length r + 1 < wb \/ length r + 1 = wb)%nat) by lia. destruct LB as [LB|LB].
  - (* the word is not finished *)
    assert (SH' : shape (m ++ [b]) bs ws (r ++ [b])).
    { split; [rewrite Em, <- !app_assoc; reflexivity|]. rewrite app_length. cbn [length]. repeat split; try assumption. }
    rewrite (shape_len _ _ _ _ SH'). rewrite app_length. cbn [length]. fold q.
    replace (W P * (16 * Z.of_nat (length bs) + Z.of_nat q) + 8 * Z.of_nat (length r + 1)) with (W P * Z.of_nat q + 8 * Z.of_nat (length r + 1) + Z.of_nat (length bs) * (16 * W P)) by ring.
    rewrite Z.mod_add by lia. rewrite Z.mod_small.
    2:{ split; [lia|]. apply Z.lt_le_trans with (W P * Z.of_nat q + W P); [lia|]. replace (W P * Z.of_nat q + W P) with (W P * (Z.of_nat q + 1)) by ring. rewrite (Z.mul_comm 16). apply Z.mul_le_mono_nonneg_l; lia. }
    destruct (Z.eqb_spec (W P * Z.of_nat q + 8 * Z.of_nat (length r + 1)) 0) as [Z0|_].
    { exfalso. pose proof (Z.mul_nonneg_nonneg (W P) (Z.of_nat q) ltac:(lia) ltac:(lia)). lia. }
    constructor; cbn [h_len0 h_len1 h_h h_w]; [exact BM|exact V0|exact V1|exact WL|exact WF|apply (i_hl _ _ I)|apply (i_h _ _ I)|].
    exists bs, ws, (r ++ [b]). split; [exact SH'|]. split; [exact Hh|]. fold q. split.
    + rewrite <- Hw. apply nth_ext_Z; [rewrite !firstn_length, WL, (i_wl _ _ I); reflexivity|].
      intros i Hi. rewrite firstn_length in Hi. rewrite !nth_firstn by lia. unfold w'. apply nth_aset_neq. lia.
    + unfold w'. rewrite nth_aset_eq by (rewrite (i_wl _ _ I); lia). exact XR.
  - (* the word is finished *)
    assert (XE : x' = os2ip (r ++ [b])).
    { rewrite <- XR. rewrite app_length. cbn [length]. rewrite LB, pow_wb. symmetry. apply Z.mod_small. exact X'. }
    assert (Fw' : Forall (fun x => length x = wb) (ws ++ [r ++ [b]])) by (apply Forall_app; split; [exact Fw|repeat constructor; rewrite app_length; exact LB]).
    assert (FN' : firstn (S q) w' = map os2ip (ws ++ [r ++ [b]])) by (rewrite map_app, FN, XE; reflexivity).
    assert (LQ : length (ws ++ [r ++ [b]]) = S q) by (rewrite app_length; cbn [length]; fold q; lia).
    assert (BL : blen (m ++ [b]) = W P * (Z.of_nat q + 1) + Z.of_nat (length bs) * (16 * W P)).
    { unfold blen. rewrite Em, !app_length, (concat_len _ _ Fb), (concat_len _ _ Fw). cbn [length]. fold q. rewrite EW.
      rewrite !Nat2Z.inj_add, !Nat2Z.inj_mul. change (Z.of_nat 16) with 16. assert (Z.of_nat (length r) + 1 = Z.of_nat wb) by lia. lia. }
    rewrite BL. rewrite Z.mod_add by lia. assert (LQ2 : (S q < 16 \/ S q = 16)%nat) by lia. destruct LQ2 as [Lq|Lq].
    + rewrite Z.mod_small. 2:{ split; [apply Z.mul_nonneg_nonneg; lia|]. rewrite (Z.mul_comm 16). apply Z.mul_lt_mono_pos_l; lia. }
      destruct (Z.eqb_spec (W P * (Z.of_nat q + 1)) 0) as [Z0|_].
      { exfalso. assert (0 < W P * (Z.of_nat q + 1)) by (apply Z.mul_pos_pos; lia). lia. }
      constructor; cbn [h_len0 h_len1 h_h h_w]; [exact BM|exact V0|exact V1|exact WL|exact WF|apply (i_hl _ _ I)|apply (i_h _ _ I)|].
      exists bs, (ws ++ [r ++ [b]]), []. split; [|split; [exact Hh|split]].
      * split; [rewrite Em, concat_app; cbn [concat]; rewrite !app_nil_r, <- !app_assoc; reflexivity|]. cbn [length]. repeat split; try assumption; lia.
      * rewrite LQ. exact FN'.
      * cbn [length]. change (Z.of_nat 0) with 0. rewrite Z.pow_0_r, Z.mod_1_r. reflexivity.
    + replace (W P * (Z.of_nat q + 1)) with (1 * (16 * W P)) by (replace (Z.of_nat q + 1) with 16 by lia; ring). rewrite Z.mod_mul by lia. rewrite Z.eqb_refl.
      set (s1 := mkhst l0 l1 (h_h s) w').
      destruct (transform_ok C P HM s1 WL WF (i_hl _ _ I) (i_h _ _ I)) as [T0 [T1 [T2 [T3 [T4 [T5 T6]]]]]].
      constructor; [exact BM|rewrite T0; exact V0|rewrite T1; exact V1|exact T3|exact T4|exact T5|exact T6|].
      exists (bs ++ [concat (ws ++ [r ++ [b]])]), [], []. split; [|split; [|split]].
      * split; [rewrite Em, concat_app; cbn [concat]; rewrite !app_nil_r, concat_app; cbn [concat]; rewrite app_nil_r, <- !app_assoc; reflexivity|].
        split; [|repeat split; [constructor|cbn; lia|cbn; lia]]. apply Forall_app. split; [exact Fb|]. constructor; [|constructor].
        rewrite (concat_len wb _ Fw'), LQ. lia.
      * rewrite T2. rewrite map_app, fold_left_app. cbn [map fold_left]. unfold s1. cbn [h_h h_w]. rewrite Hh. f_equal.
        rewrite <- Lq, FN'. unfold words_of. rewrite cut_concat; try assumption; fold wb; try lia. reflexivity.
      * reflexivity.
      * cbn [length]. change (Z.of_nat 0) with 0. rewrite Z.pow_0_r, Z.mod_1_r. reflexivity.
Qed.
Lemma process_array_ok bd : forall b m s, inv m s -> bytes b -> fits bd (Z.of_nat (length m) + Z.of_nat (length b)) -> exists s', process_array C bd s b = Some s' /\ inv (m ++ b) s'.
Proof.
  induction b as [|x b IH]; intros m s I Hb F; [exists s; rewrite app_nil_r; auto|]. inversion Hb; subst. cbn [length] in F. cbn [process_array].
  destruct (process_ok bd m s x I) as [s1 [E1 I1]]; [assumption|eapply fits_le; [|exact F]; lia|]. rewrite E1. cbn [bind].
  destruct (IH _ _ I1) as [s2 [E2 I2]]; [assumption|rewrite app_length; cbn [length]; eapply fits_le; [|exact F]; lia|].
  exists s2. rewrite <- app_assoc in I2. auto.
Qed.
Lemma process_num_ok bd n m s : inv m s -> fits bd (Z.of_nat (length m) + 4) -> exists s', process_num C bd s n = Some s' /\ inv (m ++ i2osp n 4) s'.
Proof.
  intros I F. destruct (process_array_ok bd (i2osp n 4) m s I (i2osp_bytes n 4) F) as [s' [E I']]. exists s'. split; [|exact I'].
  rewrite <- E. unfold process_num. rewrite !land255, !Z.shiftr_div_pow2 by lia. cbn [i2osp app process_array].
  rewrite !Z.div_div by lia. change (2 ^ 24) with (256 * (256 * 256)). change (2 ^ 16) with (256 * 256). change (2 ^ 8) with 256.
  destruct (process C bd s _); [|reflexivity]. cbn [bind]. destruct (process C bd _ _); [|reflexivity]. cbn [bind]. destruct (process C bd _ _); [|reflexivity]. cbn [bind].
  destruct (process C bd _ _); reflexivity.
Qed.
Definition zn (n : nat) : nat := Z.to_nat ((14 * Z.of_nat wb - Z.of_nat n) mod (16 * Z.of_nat wb)).
Lemma pad_loop_ok bd : forall k f m s, inv m s -> zn (length m) = k -> (k <= f)%nat -> fits bd (Z.of_nat (length m) + Z.of_nat k) ->
  exists s', pad_loop C bd f s = Some s' /\ inv (m ++ repeat 0 k) s' /\ Z.of_nat (length (m ++ repeat 0 k)) mod (16 * Z.of_nat wb) = 14 * Z.of_nat wb.
Proof.
  pose proof wb_pos as WB. pose proof Wwb as EW.
  assert (CND : forall m s, inv m s -> (h_len0 s mod (16 * sW C) =? 14 * sW C) = (zn (length m) =? 0)%nat).
  { intros m s I. rewrite (i_l0 _ _ I), (mW _ _ HM), blk_ok. unfold zn, blen. rewrite EW.
    replace (16 * (8 * Z.of_nat wb)) with (8 * (16 * Z.of_nat wb)) by ring. rewrite Z.mul_mod_distr_l by lia.
    set (N := Z.of_nat (length m)). set (B := 16 * Z.of_nat wb) in *. assert (BP : 0 < B) by lia.
    pose proof (Z.div_mod N B ltac:(lia)) as D. pose proof (Z.mod_pos_bound N B BP) as R.
    assert (E : (14 * Z.of_nat wb - N) mod B = if N mod B <=? 14 * Z.of_nat wb then 14 * Z.of_nat wb - N mod B else B + 14 * Z.of_nat wb - N mod B).
    { destruct (Z.leb_spec (N mod B) (14 * Z.of_nat wb)); [apply (mod_uniq _ (- (N / B)))|apply (mod_uniq _ (- (N / B) - 1))]; lia. }
    rewrite E. destruct (Z.leb_spec (N mod B) (14 * Z.of_nat wb)); destruct (Z.eqb_spec (8 * (N mod B)) (14 * (8 * Z.of_nat wb))); destruct (Nat.eqb_spec (Z.to_nat (14 * Z.of_nat wb - N mod B)) 0);
    try destruct (Nat.eqb_spec (Z.to_nat (B + 14 * Z.of_nat wb - N mod B)) 0); try reflexivity; exfalso; lia. }
  induction k as [|k IH]; intros f m s I Hz Hf F.
  - exists s. cbn [repeat]. rewrite app_nil_r. split.
    + destruct f; [reflexivity|]. cbn [pad_loop]. rewrite (CND _ _ I), Hz. reflexivity.
    + split; [exact I|]. unfold zn in Hz. set (B := 16 * Z.of_nat wb) in *. pose proof (Z.mod_pos_bound (14 * Z.of_nat wb - Z.of_nat (length m)) B ltac:(lia)).
      assert (E : (14 * Z.of_nat wb - Z.of_nat (length m)) mod B = 0) by lia. apply Z.mod_divide in E; [|lia]. destruct E as [t E]. apply (mod_uniq _ (- t)); lia.
  - destruct f as [|f]; [lia|]. cbn [pad_loop]. rewrite (CND _ _ I), Hz. cbn [Nat.eqb].
    destruct (process_ok bd m s 0 I) as [s1 [E1 I1]]; [unfold is_byte; lia|eapply fits_le; [|exact F]; lia|]. rewrite E1. cbn [bind].
    destruct (IH f (m ++ [0]) s1 I1) as [s2 [E2 [I2 L2]]].
    + unfold zn in *. rewrite app_length. cbn [length]. set (B := 16 * Z.of_nat wb) in *. set (y := 14 * Z.of_nat wb - Z.of_nat (length m)) in *.
      replace (14 * Z.of_nat wb - Z.of_nat (length m + 1)) with (y - 1) by (unfold y; lia).
      pose proof (Z.mod_pos_bound y B ltac:(lia)). pose proof (Z.div_mod y B ltac:(lia)).
      replace ((y - 1) mod B) with (y mod B - 1); [lia|]. symmetry. apply (mod_uniq _ (y / B)); lia.
    + lia.
    + rewrite app_length. cbn [length]. eapply fits_le; [|exact F]. lia.
    + exists s2. rewrite <- app_assoc in I2, L2. cbn [repeat]. change (0 :: repeat 0 k) with ([0] ++ repeat 0 k). auto.
Qed.
Lemma digest_ok h : length h = 8%nat -> digest_of C h = firstn (outlen P) (flat_map (fun x => i2osp x wb) h).
Proof.
  intros Hh. pose proof wb_pos as WB. pose proof (mO2 _ _ HM) as O2. fold wb in O2. unfold digest_of. rewrite (mW _ _ HM), (mO _ _ HM).
  change (Z.to_nat (W P / 8)) with wb. apply nth_ext_Z.
  - rewrite map_length, seq_length, firstn_length, (flat_map_len _ wb) by (intros; apply i2osp_length). rewrite Hh. lia.
  - rewrite map_length, seq_length. intros i Hi. rewrite nth_map_seq by exact Hi. rewrite Nat.add_0_l. rewrite nth_firstn by exact Hi.
    rewrite (nth_flat_map _ wb) by (try lia; intros; apply i2osp_length). pose proof (Nat.mod_upper_bound i wb ltac:(lia)).
    rewrite nth_i2osp by lia. rewrite shr_byte by lia. reflexivity.
Qed.
Lemma zeros_zn m : zeros_needed P (length m) = zn (length (m ++ [128])).
Proof.
  unfold zeros_needed, zn. rewrite app_length. cbn [length]. f_equal. replace (W P / 8) with (Z.of_nat wb) by (rewrite Wwb, Z.mul_comm, Z.div_mul by lia; reflexivity).
  f_equal. lia.
Qed.
Lemma zn_bound n : (zn n < 16 * wb)%nat.
Proof. unfold zn. pose proof wb_pos. pose proof (Z.mod_pos_bound (14 * Z.of_nat wb - Z.of_nat n) (16 * Z.of_nat wb) ltac:(lia)). lia. Qed.
Lemma H0_inw : Forall (inw P) (H0 P).
Proof. unfold H0. apply Forall_forall. intros x Hx. apply in_map_iff in Hx. destruct Hx as [y [<- _]]. unfold frac_root. apply (mod_inw C P HM). Qed.
(** reset *)
Lemma init_ok s : length (h_w s) = rounds P -> Forall (inw P) (h_w s) -> inv [] (h_init C s).
Proof.
  intros L F. pose proof (mR3 _ _ HM) as R3. pose proof (pow2_pos (W P)) as Hp. pose proof (wpos C P HM). pose proof wb_pos.
  constructor; unfold h_init; cbn [h_len0 h_len1 h_h h_w]; unfold blen; cbn [length].
  - constructor.
  - rewrite Z.mod_small; [reflexivity|lia].
  - change (8 * Z.of_nat 0) with 0. rewrite Z.div_small, Z.mod_small by lia. reflexivity.
  - rewrite app_length, repeat_length, skipn_length. lia.
  - apply Forall_app. split.
    + apply Forall_forall. intros x Hx. apply repeat_spec in Hx. subst. apply (zero_inw C P HM).
    + apply Forall_forall. intros x Hx. rewrite Forall_forall in F. apply F. rewrite <- (firstn_skipn 64 (h_w s)). apply in_or_app. auto.
  - rewrite (mH _ _ HM). apply (mHl _ _ HM).
  - rewrite (mH _ _ HM). apply H0_inw.
  - exists [], [], []. split; [|split; [|split]].
    + unfold shape. repeat split; try constructor; cbn; lia.
    + rewrite (mH _ _ HM). reflexivity.
    + reflexivity.
    + change (Z.of_nat (length (@nil Z))) with 0. rewrite Z.pow_0_r, Z.mod_1_r. reflexivity.
Qed.
Lemma new_ok : inv [] (h_new C).
Proof.
  apply init_ok; cbn [h_w].
  - rewrite repeat_length. apply (mR _ _ HM).
  - apply Forall_forall. intros x Hx. apply repeat_spec in Hx. subst. apply (zero_inw C P HM).
Qed.
(** finalisation: the digest is SHA-2 of what was absorbed, and the object is reset *)
Lemma hash_ok bd m s : inv m s -> fits bd (Z.of_nat (length m) + 32 * Z.of_nat wb) -> exists s', hash C bd s = Some (SHA2 P m, s') /\ inv [] s'.
Proof.
  intros I F. pose proof wb_pos as WB. pose proof Wwb as EW. pose proof (mR2 _ _ HM) as R2. unfold hash.
  destruct (process_ok bd m s 128 I) as [s1 [E1 I1]]; [unfold is_byte; lia|eapply fits_le; [|exact F]; lia|]. rewrite E1. cbn [bind].
  pose proof (zn_bound (length (m ++ [128]))) as ZB.
  destruct (pad_loop_ok bd (zn (length (m ++ [128]))) (Z.to_nat (2 * sW C)) (m ++ [128]) s1 I1 eq_refl) as [s2 [E2 [I2 L2]]].
  { rewrite (mW _ _ HM), EW. lia. }
  { eapply fits_le; [|exact F]. rewrite app_length in *. cbn [length] in *. lia. }
  rewrite E2. cbn [bind]. rewrite <- app_assoc in I2, L2. rewrite <- zeros_zn in I2, L2.
  set (M := m ++ [128] ++ repeat 0 (zeros_needed P (length m))) in *.
  destruct (i_ex _ _ I2) as [bs [ws [r [SH [Hh [Hw Hr]]]]]].
  assert (LW : length ws = 14%nat /\ r = []).
  { pose proof (shape_len _ _ _ _ SH) as SL. destruct SH as [_ [_ [_ [Lw Lr]]]]. unfold blen in SL. set (N := Z.of_nat (length M)) in *.
    pose proof (Z.div_mod N (16 * Z.of_nat wb) ltac:(lia)) as D. rewrite L2 in D. rewrite EW in SL. set (Q := N / (16 * Z.of_nat wb)) in *.
    assert (E : Z.of_nat wb * (16 * Q + 14) = Z.of_nat wb * (16 * Z.of_nat (length bs) + Z.of_nat (length ws)) + Z.of_nat (length r)) by lia.
    assert (E' : 16 * Q + 14 = 16 * Z.of_nat (length bs) + Z.of_nat (length ws)).
    { rewrite <- (div_uniq (Z.of_nat wb * (16 * Q + 14)) (16 * Q + 14) (Z.of_nat wb) 0) by lia. apply (div_uniq _ _ _ (Z.of_nat (length r))); lia. }
    split; [lia|]. destruct r as [|y r]; [reflexivity|]. cbn [length] in E. rewrite E' in E. lia. }
  destruct LW as [LW ->]. rewrite LW in Hw.
  set (w2 := aset (aset (h_w s2) 14 (h_len1 s)) 15 (h_len0 s)).
  assert (RL0 : inw P (h_len0 s)) by (rewrite (i_l0 _ _ I); apply (mod_inw C P HM)). assert (RL1 : inw P (h_len1 s)) by (rewrite (i_l1 _ _ I); apply (mod_inw C P HM)).
  assert (L2w : length (h_w s2) = rounds P) by apply (i_wl _ _ I2).
  assert (W2L : length w2 = rounds P) by (unfold w2; rewrite !aset_length; exact L2w).
  assert (W2F : Forall (inw P) w2) by (unfold w2; apply Forall_aset; [apply Forall_aset; [apply (i_w _ _ I2)|exact RL1]|exact RL0]).
  assert (W2E : firstn 16 w2 = map os2ip (ws ++ [i2osp (blen m / 2 ^ W P) wb; i2osp (blen m) wb])).
  { unfold w2. rewrite firstn_aset by (rewrite aset_length, L2w; lia). rewrite firstn_aset by (rewrite L2w; lia). rewrite Hw, map_app, <- app_assoc. cbn [map app].
    rewrite !os2ip_i2osp, pow_wb, <- (i_l0 _ _ I), <- (i_l1 _ _ I). reflexivity. }
  set (s3 := mkhst (h_len0 s2) (h_len1 s2) (h_h s2) w2).
  destruct (transform_ok C P HM s3 W2L W2F (i_hl _ _ I2) (i_h _ _ I2)) as [T0 [T1 [T2 [T3 [T4 [T5 T6]]]]]].
  exists (h_init C (transform C s3)). split; [|apply init_ok; assumption]. f_equal. f_equal.
  rewrite digest_ok by exact T5. unfold SHA2. fold wb. f_equal. f_equal. rewrite T2. unfold s3. cbn [h_h h_w]. rewrite Hh, W2E.
  destruct SH as [Em [Fb [Fw [Lw Lr]]]]. rewrite app_nil_r in Em.
  set (lastb := ws ++ [i2osp (blen m / 2 ^ W P) wb; i2osp (blen m) wb]).
  assert (FL : Forall (fun x => length x = wb) lastb) by (apply Forall_app; split; [exact Fw|repeat constructor; apply i2osp_length]).
  assert (PE : pad P m = concat (bs ++ [concat lastb])).
  { unfold pad. fold wb. replace (2 * wb)%nat with (wb + wb)%nat by lia. rewrite i2osp_app, pow_wb. rewrite !app_assoc. rewrite <- (app_assoc m). fold M. rewrite Em.
    rewrite concat_app. cbn [concat]. rewrite app_nil_r. unfold lastb. rewrite concat_app. cbn [concat]. rewrite app_nil_r, <- !app_assoc. reflexivity. }
  rewrite PE. unfold blocks_of. fold wb. rewrite cut_concat.
  2:{ lia. }
  2:{ apply Forall_app. split; [exact Fb|]. constructor; [|constructor]. rewrite (concat_len wb _ FL). unfold lastb. rewrite app_length, LW. cbn [length]. lia. }
  2:{ lia. }
  rewrite map_app, fold_left_app. cbn [map fold_left]. f_equal. unfold words_of. fold wb. rewrite cut_concat by (try assumption; lia). reflexivity.
Qed.
Lemma SHA2_bytes m : bytes (SHA2 P m).
Proof.
  unfold SHA2. apply Forall_forall. intros x Hx. apply (In_nth _ _ 0) in Hx. destruct Hx as [i [Hi <-]].
  rewrite firstn_length in Hi. rewrite nth_firstn by lia. apply Forall_nth_ok; [|unfold is_byte; lia].
  generalize (fold_left (compress P) (blocks_of P (pad P m)) (H0 P)). intros l. induction l as [|y l IH]; [constructor|]. cbn [flat_map]. apply Forall_app. split; [apply i2osp_bytes|exact IH].
Qed.
Lemma SHA2_length m : length (SHA2 P m) = outlen P.
Proof.
  assert (L : length (fold_left (compress P) (blocks_of P (pad P m)) (H0 P)) = 8%nat).
  { generalize (blocks_of P (pad P m)). intros l. assert (G : forall l h, length h = 8%nat -> length (fold_left (compress P) l h) = 8%nat).
    { clear l. induction l as [|b l IH]; intros h Hh; [exact Hh|]. cbn [fold_left]. apply IH. unfold compress, add_words. rewrite map_length, combine_length, Hh, compress_len_inw by exact Hh. reflexivity. }
    apply G. apply (mHl _ _ HM). }
  unfold SHA2. rewrite firstn_length, (flat_map_len _ wb) by (intros; apply i2osp_length). rewrite L. pose proof (mO2 _ _ HM) as O2. fold wb in O2. lia.
Qed.
End Stream.
