(** Value of a limb list, normal forms, norm, comp, limb-wise operations. *)
From Verif Require Export Base.Word Model.Big Spec.BigSpec.
Require Import Psatz.

Ltac inv H := inversion H; subst; clear H.

Lemma val_app B a b : 0 <= B -> val B (a ++ b) = val B a + 2 ^ (B * Z.of_nat (length a)) * val B b.
Proof.
  intros HB. induction a as [|x a IH].
  - cbn [app val length]. rewrite Z.mul_0_r, Z.pow_0_r. lia.
  - cbn [app val length]. rewrite IH.
    replace (B * Z.of_nat (S (length a))) with (B + B * Z.of_nat (length a)) by lia.
    rewrite Z.pow_add_r by nia. ring.
Qed.

Lemma val_repeat0 B n : val B (repeat 0 n) = 0.
Proof. induction n as [|n IH]; cbn [repeat val]; [reflexivity|]. rewrite IH. lia. Qed.

Lemma canon_nrm B w : canon B w -> nrm B w.
Proof.
  intros H. induction H as [|x t Hx Ht IH]; cbn; [exact I|].
  destruct t; [exact I|]. split; [exact Hx|exact IH].
Qed.

Lemma nrm_tail B x t : nrm B (x :: t) -> nrm B t.
Proof. destruct t; cbn; [trivial|tauto]. Qed.

Lemma canon_val B w : 0 <= B -> canon B w -> 0 <= val B w < 2 ^ (B * Z.of_nat (length w)).
Proof.
  intros HB H. induction H as [|x t Hx Ht IH].
  - cbn [val length]. rewrite Z.mul_0_r. cbn. lia.
  - cbn [val length].
    replace (B * Z.of_nat (S (length t))) with (B + B * Z.of_nat (length t)) by lia.
    rewrite Z.pow_add_r by nia. nia.
Qed.

(** the top limb of a normal list is the quotient *)
Lemma nrm_last B w : 0 <= B -> nrm B w -> w <> [] ->
  last w 0 = val B w / 2 ^ (B * Z.of_nat (length w - 1)).
Proof.
  intros HB. induction w as [|x t IH]; intros Hn Hne; [congruence|].
  destruct t as [|y t].
  - cbn [last val length]. replace (B * Z.of_nat (1 - 1)) with 0 by (cbn; lia).
    rewrite Z.pow_0_r, Z.div_1_r. lia.
  - cbn [nrm] in Hn. destruct Hn as [Hx Hn].
    specialize (IH Hn ltac:(discriminate)).
    change (last (x :: y :: t) 0) with (last (y :: t) 0). rewrite IH.
    change (val B (x :: y :: t)) with (x + 2 ^ B * val B (y :: t)).
    replace (B * Z.of_nat (length (x :: y :: t) - 1))
      with (B + B * Z.of_nat (length (y :: t) - 1)).
    2:{ cbn [length]. replace (S (S (length t)) - 1)%nat with (S (S (length t) - 1))%nat by lia. lia. }
    rewrite Z.pow_add_r by (cbn; nia). 
    rewrite <- Z.div_div; [|apply Z.pow_nonzero; lia|apply pow2_pos; cbn; nia].
    f_equal. rewrite Z.mul_comm, Z.div_add by (apply Z.pow_nonzero; lia).
    rewrite (Z.div_small x) by lia. lia.
Qed.

Lemma nrm_sign B w : 0 <= B -> nrm B w -> w <> [] -> (last w 0 < 0 <-> val B w < 0).
Proof.
  intros HB Hn Hne. rewrite (nrm_last B w HB Hn Hne).
  assert (0 < 2 ^ (B * Z.of_nat (length w - 1))) by (apply pow2_pos; nia).
  split; intros H1.
  - destruct (Z_lt_le_dec (val B w) 0) as [L|L]; [exact L|].
    pose proof (Z.div_pos (val B w) _ L H). lia.
  - apply Z.div_lt_upper_bound; lia.
Qed.

Lemma nrm_canon B w n : 0 <= B -> nrm B w -> length w = n ->
  0 <= val B w < 2 ^ (B * Z.of_nat n) -> canon B w.
Proof.
  intros HB. revert n. induction w as [|x t IH]; intros n Hn Hl Hv; [constructor|].
  destruct t as [|y t].
  - cbn [val] in Hv. cbn [length] in Hl. subst n. constructor; [|constructor].
    replace (B * Z.of_nat 1) with B in Hv by lia. lia.
  - cbn [nrm] in Hn. destruct Hn as [Hx Hn]. constructor; [exact Hx|].
    destruct n as [|n]; [discriminate|]. cbn [length] in Hl. injection Hl as Hl.
    apply (IH n); [exact Hn|exact Hl|].
    change (val B (x :: y :: t)) with (x + 2 ^ B * val B (y :: t)) in Hv.
    replace (B * Z.of_nat (S n)) with (B + B * Z.of_nat n) in Hv by lia.
    rewrite Z.pow_add_r in Hv by nia. 
    assert (0 < 2 ^ B) by (apply pow2_pos; lia). nia.
Qed.

Lemma nrm_inj B a b : 0 <= B -> nrm B a -> nrm B b -> length a = length b ->
  val B a = val B b -> a = b.
Proof.
  intros HB. revert b. induction a as [|x a IH]; intros [|y b] Ha Hb Hl Hv; cbn in Hl; try discriminate; [reflexivity|].
  injection Hl as Hl. cbn [val] in Hv.
  destruct a as [|x' a], b as [|y' b]; cbn in Hl; try discriminate.
  - cbn [val] in Hv. f_equal. lia.
  - cbn [nrm] in Ha, Hb. destruct Ha as [Hx Ha], Hb as [Hy Hb].
    assert (P : 0 < 2 ^ B) by (apply pow2_pos; lia).
    assert (E : val B (x' :: a) = val B (y' :: b)).
    { assert (E1 : (x + 2 ^ B * val B (x' :: a)) / 2 ^ B = (y + 2 ^ B * val B (y' :: b)) / 2 ^ B) by congruence.
      rewrite !(Z.mul_comm (2 ^ B)), !Z.div_add, (Z.div_small x), (Z.div_small y) in E1 by lia. lia. }
    f_equal; [rewrite E in Hv; lia|].
    apply IH; [exact Ha|exact Hb|cbn; lia|exact E].
Qed.

(** ** norm *)
Section WithCfg.
Variable c : cfg.
Notation B := (BASEBITS c).
Notation C := (CHUNK c).
Hypothesis HB : 8 <= B.
Hypothesis HC : B + 3 <= C.

Lemma bmask_land x : Z.land x (BMASK c) = x mod 2 ^ B.
Proof. unfold BMASK. apply land_mask. lia. Qed.

Lemma norm_loop_length w cc r : norm_loop c w cc = Some r -> length r = length w.
Proof.
  revert cc r. induction w as [|x t IH]; intros cc r H; cbn [norm_loop] in H; [inv H; reflexivity|].
  destruct t as [|y t].
  - unfold bind in H. destruct (chk C (x + cc)) eqn:E; [|discriminate]. inv H. reflexivity.
  - unfold bind in H at 1. destruct (chk C (x + cc)) as [d|] eqn:E; [|discriminate].
    unfold bind in H. destruct (norm_loop c (y :: t) _) as [q|] eqn:E2; [|discriminate].
    inv H. cbn [length]. f_equal. exact (IH _ _ E2).
Qed.

(** partial correctness: whenever norm does not overflow it preserves the value *)
Lemma norm_loop_val w cc r : norm_loop c w cc = Some r ->
  w <> [] -> val B r = val B w + cc /\ nrm B r.
Proof.
  revert cc r. induction w as [|x t IH]; intros cc r H Hne; [congruence|].
  cbn [norm_loop] in H. destruct t as [|y t].
  - unfold bind in H. destruct (chk C (x + cc)) as [d|] eqn:E; [|discriminate].
    apply chk_inv in E. destruct E as [-> _]. inv H. cbn. split; [lia|exact I].
  - unfold bind in H at 1. destruct (chk C (x + cc)) as [d|] eqn:E; [|discriminate].
    apply chk_inv in E. destruct E as [-> _].
    unfold bind in H. destruct (norm_loop c (y :: t) _) as [q|] eqn:E2; [|discriminate].
    pose proof (norm_loop_length _ _ _ E2) as Hlen.
    apply IH in E2; [|discriminate]. destruct E2 as [Ev En]. inv H.
    rewrite bmask_land.
    change (val B (x :: y :: t)) with (x + 2 ^ B * val B (y :: t)).
    change (val B (?a :: q)) with (a + 2 ^ B * val B q). rewrite Ev.
    rewrite Z.shiftr_div_pow2 by lia.
    pose proof (Z.div_mod (x + cc) (2 ^ B) ltac:(apply Z.pow_nonzero; lia)) as D.
    split; [lia|].
    destruct q as [|z q]; [cbn in Hlen; discriminate|].
    split; [apply Z.mod_pos_bound; apply pow2_pos; lia|exact En].
Qed.

Lemma norm_val w r : norm c w = Some r -> val B r = val B w /\ nrm B r /\ length r = length w.
Proof.
  intros H. destruct w as [|x t].
  - unfold norm in H. cbn in H. inv H. cbn. auto.
  - split; [|split].
    + apply norm_loop_val in H; [|discriminate]. lia.
    + apply norm_loop_val in H; [|discriminate]. tauto.
    + eapply norm_loop_length; exact H.
Qed.

(** limbs within +-M never overflow, M = 2^(C-1) - 2^(C-1-B) *)
Definition Mlim : Z := 2 ^ (C - 1) - 2 ^ (C - 1 - B).
Definition small (w : list Z) : Prop := Forall (fun x => - Mlim <= x < Mlim) w.

Lemma norm_loop_total w cc : small w -> - 2 ^ (C - 1 - B) <= cc <= 2 ^ (C - 1 - B) ->
  exists r, norm_loop c w cc = Some r.
Proof.
  intros Hs. revert cc. induction Hs as [|x t Hx Ht IH]; intros cc Hcc; [eexists; reflexivity|].
  assert (R : - 2 ^ (C - 1) <= x + cc < 2 ^ (C - 1)) by (unfold Mlim in Hx; lia).
  destruct t as [|y t].
  - cbn [norm_loop]. rewrite chk_ok by exact R. eexists; reflexivity.
  - cbn [norm_loop]. rewrite chk_ok by exact R. cbn [bind].
    destruct (IH (Z.shiftr (x + cc) B)) as [r Hr].
    + rewrite Z.shiftr_div_pow2 by lia.
      assert (E : 2 ^ (C - 1) = 2 ^ (C - 1 - B) * 2 ^ B).
      { rewrite <- Z.pow_add_r by lia. f_equal. lia. }
      assert (P : 0 < 2 ^ B) by (apply pow2_pos; lia).
      split.
      * apply Z.div_le_lower_bound; lia.
      * apply Z.div_le_upper_bound; lia.
    + cbn [norm_loop] in Hr. rewrite Hr. eexists; reflexivity.
Qed.

Lemma norm_total w : small w -> exists r, norm c w = Some r /\ val B r = val B w /\ nrm B r /\ length r = length w.
Proof.
  intros H. destruct (norm_loop_total w 0 H) as [r Hr].
  - pose proof (pow2_pos (C - 1 - B) ltac:(lia)). lia.
  - exists r. split; [exact Hr|]. apply norm_val. exact Hr.
Qed.

Lemma canon_small w : canon B w -> small w.
Proof.
  intros H. unfold small. eapply Forall_impl; [|exact H]. cbn. intros x Hx.
  unfold Mlim.
  assert (2 ^ (C - 1) >= 2 * 2 ^ B).
  { replace (C - 1) with (1 + B + (C - 2 - B)) by lia. rewrite !Z.pow_add_r by lia.
    pose proof (pow2_pos (C - 2 - B) ltac:(lia)). pose proof (pow2_pos B ltac:(lia)). change (2^1) with 2. nia. }
  assert (2 ^ (C - 1 - B) <= 2 ^ (C - 2)) by (apply pow2_le; lia).
  assert (2 ^ (C - 1) = 2 * 2 ^ (C - 2)) by (replace (C - 1) with (1 + (C - 2)) by lia; rewrite Z.pow_add_r by lia; reflexivity).
  lia.
Qed.

(** norm of limbs already normalised is the identity *)
Lemma norm_loop_id x t : nrm B (x :: t) -> - 2 ^ (C - 1) <= last (x :: t) 0 < 2 ^ (C - 1) ->
  norm_loop c (x :: t) 0 = Some (x :: t).
Proof.
  revert x. induction t as [|y t IH]; intros x Hn Hl.
  - cbn [norm_loop]. rewrite Z.add_0_r. cbn [last] in Hl. rewrite chk_ok by exact Hl. reflexivity.
  - cbn [nrm] in Hn. destruct Hn as [Hx Hn].
    change (norm_loop c (x :: y :: t) 0) with
      (d <- chk C (x + 0) ;; r <- norm_loop c (y :: t) (Z.shiftr d B) ;; Some (Z.land d (BMASK c) :: r)).
    assert (2 ^ B <= 2 ^ (C - 1)) by (apply pow2_le; lia).
    rewrite Z.add_0_r, chk_ok by lia. cbn [bind].
    rewrite Z.shiftr_div_pow2, Z.div_small by lia.
    rewrite IH; [|exact Hn|exact Hl]. cbn [bind]. rewrite bmask_land, Z.mod_small by lia. reflexivity.
Qed.
Lemma norm_id w : nrm B w -> - 2 ^ (C - 1) <= last w 0 < 2 ^ (C - 1) -> norm c w = Some w.
Proof. destruct w as [|x t]; [reflexivity|]. apply norm_loop_id. Qed.

Lemma canon_last w : canon B w -> 0 <= last w 0 < 2 ^ B.
Proof.
  intros H. destruct w as [|x t]; [cbn; split; [lia|apply pow2_pos; lia]|].
  assert (In (last (x :: t) 0) (x :: t)).
  { destruct (@exists_last _ (x :: t) ltac:(discriminate)) as [l [y E]]. rewrite E.
    rewrite last_last. apply in_or_app. right. left. reflexivity. }
  unfold canon in H. rewrite Forall_forall in H. apply H. assumption.
Qed.

Lemma norm_canon_id w : canon B w -> norm c w = Some w.
Proof.
  intros H. apply norm_id; [apply canon_nrm; exact H|].
  pose proof (canon_last w H). assert (2 ^ B <= 2 ^ (C - 1)) by (apply pow2_le; lia). lia.
Qed.

(** ** limb-wise add / sub *)
Lemma map2o_spec f g a b r : (forall x y z, f x y = Some z -> z = g x y) ->
  map2o f a b = Some r -> length a = length b ->
  length r = length a /\ forall i, (i < length a)%nat -> nth i r 0 = g (nth i a 0) (nth i b 0).
Proof.
  intros Hf. revert b r. induction a as [|x a IH]; intros [|y b] r H Hl; cbn in Hl; try discriminate.
  - inv H. split; [reflexivity|]. cbn. lia.
  - cbn [map2o] in H. unfold bind in H. destruct (f x y) as [z|] eqn:E; [|discriminate].
    destruct (map2o f a b) as [q|] eqn:E2; [|discriminate]. inv H.
    destruct (IH b q E2 ltac:(lia)) as [H1 H2]. split; [cbn; lia|].
    intros [|i] Hi; cbn [nth]; [apply Hf; exact E|]. apply H2. cbn in Hi. lia.
Qed.

Lemma add_val a b r : add c a b = Some r -> length a = length b ->
  val B r = val B a + val B b /\ length r = length a.
Proof.
  unfold add. revert b r. induction a as [|x a IH]; intros [|y b] r H Hl; cbn in Hl; try discriminate.
  - inv H. split; reflexivity.
  - cbn [map2o] in H. unfold bind in H. destruct (chk C (x + y)) as [z|] eqn:E; [|discriminate].
    apply chk_inv in E. destruct E as [-> _].
    destruct (map2o _ a b) as [q|] eqn:E2; [|discriminate]. inv H.
    destruct (IH b q E2 ltac:(lia)) as [H1 H2]. cbn [val length]. rewrite H1. split; [ring|lia].
Qed.

Lemma sub_val a b r : sub c a b = Some r -> length a = length b ->
  val B r = val B a - val B b /\ length r = length a.
Proof.
  unfold sub. revert b r. induction a as [|x a IH]; intros [|y b] r H Hl; cbn in Hl; try discriminate.
  - inv H. split; reflexivity.
  - cbn [map2o] in H. unfold bind in H. destruct (chk C (x - y)) as [z|] eqn:E; [|discriminate].
    apply chk_inv in E. destruct E as [-> _].
    destruct (map2o _ a b) as [q|] eqn:E2; [|discriminate]. inv H.
    destruct (IH b q E2 ltac:(lia)) as [H1 H2]. cbn [val length]. rewrite H1. split; [ring|lia].
Qed.

Lemma rsub_val a b r : rsub c a b = Some r -> length a = length b ->
  val B r = val B b - val B a /\ length r = length a.
Proof.
  unfold rsub. revert b r. induction a as [|x a IH]; intros [|y b] r H Hl; cbn in Hl; try discriminate.
  - inv H. split; reflexivity.
  - cbn [map2o] in H. unfold bind in H. destruct (chk C (y - x)) as [z|] eqn:E; [|discriminate].
    apply chk_inv in E. destruct E as [-> _].
    destruct (map2o _ a b) as [q|] eqn:E2; [|discriminate]. inv H.
    destruct (IH b q E2 ltac:(lia)) as [H1 H2]. cbn [val length]. rewrite H1. split; [ring|lia].
Qed.

Lemma dbl_val a r : dbl c a = Some r -> val B r = 2 * val B a /\ length r = length a.
Proof.
  unfold dbl. revert r. induction a as [|x a IH]; intros r H.
  - inv H. split; reflexivity.
  - cbn [map1o] in H. unfold bind in H. destruct (chk C (x + x)) as [z|] eqn:E; [|discriminate].
    apply chk_inv in E. destruct E as [-> _].
    destruct (map1o _ a) as [q|] eqn:E2; [|discriminate]. inv H.
    destruct (IH q eq_refl) as [H1 H2]. cbn [val length]. rewrite H1. split; [ring|lia].
Qed.

Lemma imul_val a k r : imul c a k = Some r -> val B r = val B a * wrap C k /\ length r = length a.
Proof.
  unfold imul. revert r. induction a as [|x a IH]; intros r H.
  - inv H. split; reflexivity.
  - cbn [map1o] in H. unfold bind in H. destruct (chk C (x * wrap C k)) as [z|] eqn:E; [|discriminate].
    apply chk_inv in E. destruct E as [-> _].
    destruct (map1o _ a) as [q|] eqn:E2; [|discriminate]. inv H.
    destruct (IH q eq_refl) as [H1 H2]. cbn [val length]. rewrite H1. split; [ring|lia].
Qed.

(** totality with bounds: limbs of size <= M1, M2 *)
Lemma within_weaken lo hi lo' hi' w : within lo hi w -> lo' <= lo -> hi <= hi' -> within lo' hi' w.
Proof. intros H ? ?. eapply Forall_impl; [|exact H]. cbn. lia. Qed.

Lemma add_total l1 h1 l2 h2 a b : within l1 h1 a -> within l2 h2 b -> length a = length b ->
  - 2 ^ (C - 1) <= l1 + l2 -> h1 + h2 < 2 ^ (C - 1) ->
  exists r, add c a b = Some r /\ within (l1 + l2) (h1 + h2) r.
Proof.
  intros Ha. revert b. unfold add. induction Ha as [|x a Hx Ha IH]; intros [|y b] Hb Hl L H; cbn in Hl; try discriminate.
  - exists []. split; [reflexivity|constructor].
  - inv Hb. destruct (IH b ltac:(assumption) ltac:(lia) L H) as [r [Hr Wr]].
    cbn [map2o]. rewrite chk_ok by lia. cbn [bind]. rewrite Hr. cbn [bind].
    eexists; split; [reflexivity|]. constructor; [lia|exact Wr].
Qed.

Lemma sub_total l1 h1 l2 h2 a b : within l1 h1 a -> within l2 h2 b -> length a = length b ->
  - 2 ^ (C - 1) <= l1 - h2 -> h1 - l2 < 2 ^ (C - 1) ->
  exists r, sub c a b = Some r /\ within (l1 - h2) (h1 - l2) r.
Proof.
  intros Ha. revert b. unfold sub. induction Ha as [|x a Hx Ha IH]; intros [|y b] Hb Hl L H; cbn in Hl; try discriminate.
  - exists []. split; [reflexivity|constructor].
  - inv Hb. destruct (IH b ltac:(assumption) ltac:(lia) L H) as [r [Hr Wr]].
    cbn [map2o]. rewrite chk_ok by lia. cbn [bind]. rewrite Hr. cbn [bind].
    eexists; split; [reflexivity|]. constructor; [lia|exact Wr].
Qed.

Lemma imul_total l h a k : within l h a -> 0 <= l -> 0 <= k < 2 ^ (C - 1) -> h * k < 2 ^ (C - 1) ->
  exists r, imul c a k = Some r /\ within (l * k) (h * k) r.
Proof.
  intros Ha Hl Hk Hh. unfold imul. rewrite wrap_id by lia.
  induction Ha as [|x a Hx Ha IH]; [exists []; split; [reflexivity|constructor]|].
  destruct IH as [r [Hr Wr]]. cbn [map1o].
  assert (l * k <= x * k <= h * k) by nia.
  rewrite chk_ok by nia. cbn [bind]. rewrite Hr. cbn [bind].
  eexists; split; [reflexivity|]. constructor; [lia|exact Wr].
Qed.

Lemma within_small l h w : within l h w -> - Mlim <= l -> h < Mlim -> small w.
Proof. intros H ? ?. eapply Forall_impl; [|exact H]. cbn. lia. Qed.

Lemma canon_within w : canon B w -> within 0 (2 ^ B - 1) w.
Proof. intros H. eapply Forall_impl; [|exact H]. cbn. lia. Qed.

Lemma Mlim_ge : 3 * 2 ^ B <= Mlim.
Proof.
  unfold Mlim.
  assert (E1 : 2 ^ (C - 1) = 2 ^ B * 2 ^ (C - 1 - B)) by (rewrite <- Z.pow_add_r by lia; f_equal; lia).
  assert (P1 : 4 <= 2 ^ B) by (change 4 with (2 ^ 2); apply pow2_le; lia).
  assert (P2 : 4 <= 2 ^ (C - 1 - B)) by (change 4 with (2 ^ 2); apply pow2_le; lia).
  nia.
Qed.
Lemma Mlim_le : Mlim < 2 ^ (C - 1).
Proof. unfold Mlim. pose proof (pow2_pos (C - 1 - B) ltac:(lia)). lia. Qed.

(** ** comp *)
Lemma comp_spec a b : nrm B a -> nrm B b -> length a = length b ->
  comp a b = match val B a ?= val B b with Lt => -1 | Eq => 0 | Gt => 1 end.
Proof.
  revert b. induction a as [|x a IH]; intros [|y b] Ha Hb Hl; cbn in Hl; try discriminate; [reflexivity|].
  assert (P : 0 < 2 ^ B) by (apply pow2_pos; lia).
  cbn [comp val]. rewrite (IH b); [|eapply nrm_tail; eassumption|eapply nrm_tail; eassumption|lia].
  destruct a as [|x' a], b as [|y' b]; cbn in Hl; try discriminate.
  - cbn [val]. rewrite Z.compare_refl, !Z.mul_0_r, !Z.add_0_r. cbn [Z.eqb].
    destruct (Z.eqb_spec x y) as [->|N]; [rewrite Z.compare_refl; reflexivity|].
    destruct (Z.ltb_spec y x) as [L|L]; destruct (Z.compare_spec x y) as [E|E|E]; try reflexivity; lia.
  - cbn [nrm] in Ha, Hb. destruct Ha as [Hx Ha], Hb as [Hy Hb].
    set (X := val B (x' :: a)). set (Y := val B (y' :: b)).
    destruct (Z.compare_spec X Y) as [E|E|E]; cbn [Z.eqb].
    + destruct (Z.eqb_spec x y) as [->|N]; [rewrite E, Z.compare_refl; reflexivity|].
      destruct (Z.ltb_spec y x) as [L|L]; destruct (Z.compare_spec (x + 2 ^ B * X) (y + 2 ^ B * Y)) as [E1|E1|E1]; try reflexivity; lia.
    + change (-1 =? 0) with false. cbn iota. destruct (Z.compare_spec (x + 2 ^ B * X) (y + 2 ^ B * Y)) as [E1|E1|E1]; try reflexivity; nia.
    + change (1 =? 0) with false. cbn iota. destruct (Z.compare_spec (x + 2 ^ B * X) (y + 2 ^ B * Y)) as [E1|E1|E1]; try reflexivity; nia.
Qed.

Lemma comp_lt a b : nrm B a -> nrm B b -> length a = length b -> (comp a b <? 0) = (val B a <? val B b).
Proof.
  intros. rewrite comp_spec by assumption. unfold Z.ltb at 2. destruct (val B a ?= val B b); reflexivity.
Qed.
Lemma comp_eq a b : nrm B a -> nrm B b -> length a = length b -> (comp a b =? 0) = (val B a =? val B b).
Proof.
  intros. rewrite comp_spec by assumption. rewrite (Z.eqb_compare (val B a)). destruct (val B a ?= val B b); reflexivity.
Qed.

(** ** zero tests *)
Lemma iszilch_spec w : nrm B w -> iszilch w = (val B w =? 0).
Proof.
  induction w as [|x t IH]; intros H; [reflexivity|].
  cbn [iszilch forallb]. change (forallb (fun x => x =? 0) t) with (iszilch t).
  rewrite IH by (eapply nrm_tail; exact H). cbn [val].
  assert (P : 0 < 2 ^ B) by (apply pow2_pos; lia).
  destruct t as [|y t].
  - cbn [val]. rewrite Z.mul_0_r, Z.add_0_r. apply andb_true_r.
  - cbn [nrm] in H. destruct H as [Hx H]. set (X := val B (y :: t)).
    destruct (Z.eqb_spec x 0) as [E|E]; destruct (Z.eqb_spec X 0) as [E2|E2];
      destruct (Z.eqb_spec (x + 2 ^ B * X) 0) as [E3|E3]; try reflexivity; nia.
Qed.
End WithCfg.
