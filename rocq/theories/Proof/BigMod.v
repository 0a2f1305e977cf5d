(** Shift-and-subtract division: rmod, dmod, div, ddiv; modular helpers. *)
From Verif Require Import Base.Word Model.Big Spec.BigSpec Spec.Bytes Proof.BigVal Proof.BigShift Proof.BigBytes Proof.BigMul Proof.BigSqr.
From Coq Require Import Psatz Zpow_facts.

Lemma cmove_loop_m1 a g : length a = length g -> cmove_loop (-1) a g = g.
Proof.
  revert g. induction a as [|x a IH]; intros [|y g] H; cbn in H; try discriminate; [reflexivity|].
  cbn [cmove_loop]. rewrite IH by lia. f_equal. rewrite Z.land_m1_r.
  rewrite <- Z.lxor_assoc, Z.lxor_nilpotent, Z.lxor_0_l. reflexivity.
Qed.
Lemma cmove_loop_0 a g : length a = length g -> cmove_loop 0 a g = a.
Proof.
  revert g. induction a as [|x a IH]; intros [|y g] H; cbn in H; try discriminate; [reflexivity|].
  cbn [cmove_loop]. rewrite IH by lia. f_equal. rewrite Z.land_0_r, Z.lxor_0_r. reflexivity.
Qed.

Section WithCfg.
Variable c : cfg.
Hypothesis Hok : cfg_ok c.
Notation B := (BASEBITS c).
Notation C := (CHUNK c).
Notation N := (NLEN c).
Notation X := (2 ^ BASEBITS c).
Let F := cfg_ok_facts c Hok.
Let HB16 : 16 <= B. Proof. exact (cf_B c F). Qed.
Let HB : 8 <= B. Proof. lia. Qed.
Let HB0 : 0 <= B. Proof. lia. Qed.
Let HC : B + 3 <= C. Proof. exact (cf_C c F). Qed.
Let HN2 : (2 <= N)%nat. Proof. exact (cf_N c F). Qed.
Let HX : 65536 <= X.
Proof. change 65536 with (2 ^ 16). apply pow2_le. lia. Qed.
Let HXC : 4 * X <= 2 ^ (C - 1).
Proof. change 4 with (2 ^ 2). rewrite <- Z.pow_add_r by lia. apply pow2_le. lia. Qed.
Let HM : 3 * X <= Mlim c. Proof. apply Mlim_ge; assumption. Qed.

Lemma cmove_spec a g b : length a = length g -> (b = 0 \/ b = 1) ->
  cmove c a g b = Some (if b =? 1 then g else a).
Proof.
  intros Hl Hb. unfold cmove. rewrite chk_ok by lia. cbn [bind].
  destruct Hb as [-> | ->]; cbn [Z.opp Z.eqb]; f_equal; [apply cmove_loop_0|apply cmove_loop_m1]; exact Hl.
Qed.

Lemma signbit_spec x : - 2 ^ (C - 1) <= x < 2 ^ (C - 1) -> signbit c x = if x <? 0 then 1 else 0.
Proof.
  intros H. unfold signbit. rewrite Z.shiftr_div_pow2 by lia.
  assert (P : 0 < 2 ^ (C - 1)) by (apply pow2_pos; lia).
  destruct (Z.ltb_spec x 0) as [L|L].
  - replace (x / 2 ^ (C - 1)) with (-1); [reflexivity|].
    symmetry. rewrite <- (Z.div_unique x (2 ^ (C - 1)) (-1) (x + 2 ^ (C - 1))); lia.
  - rewrite Z.div_small by lia. reflexivity.
Qed.

(** fixed length L >= 2 *)
Section L.
Variable L : nat.
Hypothesis HL : (2 <= L)%nat.
Definition cap : Z := 2 ^ (B * Z.of_nat L).
Definition wf (w : list Z) : Prop := length w = L /\ canon B w.
Definition nn (w : list Z) : Prop := length w = L /\ nrm B w.
Notation V := (val B).

Lemma wf_nn w : wf w -> nn w.
Proof. intros [H1 H2]. split; [exact H1|apply canon_nrm; exact H2]. Qed.
Lemma wf_range w : wf w -> 0 <= V w < cap.
Proof. intros [H1 H2]. unfold cap. rewrite <- H1. apply canon_val; assumption. Qed.
Lemma nn_wf w : nn w -> 0 <= V w < cap -> wf w.
Proof. intros [H1 H2] H. split; [exact H1|]. apply (nrm_canon B w L); assumption. Qed.
Lemma wf_ne (w : list Z) : length w = L -> w <> [].
Proof. intros H E. rewrite E in H. cbn in H. lia. Qed.
Lemma cap_pos : 0 < cap.
Proof. apply pow2_pos. apply Z.mul_nonneg_nonneg; lia. Qed.
Lemma cap_split : cap = 2 ^ (B * Z.of_nat (L - 1)) * X.
Proof.
  unfold cap. rewrite <- Z.pow_add_r; [|apply Z.mul_nonneg_nonneg; lia|lia]. f_equal. 
  rewrite Nat2Z.inj_sub by lia. ring.
Qed.

Lemma wf_inj a b : nn a -> nn b -> V a = V b -> a = b.
Proof. intros [A1 A2] [B1 B2] H. apply (nrm_inj B); try assumption. lia. Qed.

(** top limb from the value *)
Lemma nn_last w (k : Z) : nn w -> 0 <= k -> - (k * cap) <= V w < k * cap -> - (k * X) <= last w 0 < k * X.
Proof.
  intros [Hl Hn] Hk H. rewrite (nrm_last B w HB0 Hn (wf_ne w Hl)). rewrite Hl.
  rewrite cap_split in H. set (E := 2 ^ (B * Z.of_nat (L - 1))) in *.
  assert (PE : 0 < E) by (apply pow2_pos; apply Z.mul_nonneg_nonneg; lia).
  split; [apply Z.div_le_lower_bound; lia|apply Z.div_lt_upper_bound; lia].
Qed.

Definition up1 (w : list Z) := fshl c w 1.
Definition down1 (w : list Z) : option (list Z) := Some (shr_limbs c 1 w).

Lemma big_up_eq w : big_up c w = up1 w.
Proof. reflexivity. Qed.
Lemma big_down_eq w : big_down c w = down1 w.
Proof.
  unfold big_down, fshr, down1. replace ((0 <=? 1) && (1 <=? B)) with true; [reflexivity|].
  symmetry. apply andb_true_iff. split; apply Z.leb_le; lia.
Qed.
Lemma dbig_up_eq w : length w = L -> dbig_up c w = up1 w.
Proof.
  intros H. unfold dbig_up, dshl, up1, fshl, shl.
  replace (1 / B) with 0 by (symmetry; apply Z.div_small; lia).
  replace (1 mod B) with 1 by (symmetry; apply Z.mod_small; lia). cbn [Z.to_nat].
  replace (0 + 2 <=? length w)%nat with true by (symmetry; apply Nat.leb_le; lia).
  replace (0 <? length w)%nat with true by (symmetry; apply Nat.ltb_lt; lia).
  replace ((0 <=? 1) && (1 <=? B) && (2 <=? length w)%nat) with true.
  2:{ symmetry. rewrite !andb_true_iff, !Z.leb_le, Nat.leb_le. lia. }
  rewrite Nat.sub_0_r, firstn_all. reflexivity.
Qed.
Lemma dbig_down_eq w : length w = L -> dbig_down c w = down1 w.
Proof.
  intros H. unfold dbig_down, shr, down1.
  replace (1 / B) with 0 by (symmetry; apply Z.div_small; lia).
  replace (1 mod B) with 1 by (symmetry; apply Z.mod_small; lia). cbn [Z.to_nat skipn].
  replace (0 <? length w)%nat with true by (symmetry; apply Nat.ltb_lt; lia).
  cbn [repeat]. rewrite app_nil_r. reflexivity.
Qed.

Lemma up1_spec w : wf w -> exists r, up1 w = Some r /\ nn r /\ V r = 2 * V w.
Proof.
  intros Hw. pose proof Hw as [Hl Hc]. pose proof (canon_last c HB w Hc) as Ht.
  destruct (fshl_spec c HB HC w 1 ltac:(lia) ltac:(lia) (canon_nrm _ _ Hc)) as [r [H1 [H2 [H3 H4]]]].
  - change (2 ^ 1) with 2. lia.
  - exists r. split; [exact H1|]. split; [split; [lia|exact H3]|]. rewrite H2. change (2 ^ 1) with 2. lia.
Qed.
Lemma down1_spec w : nn w -> exists r, down1 w = Some r /\ nn r /\ V r = V w / 2.
Proof.
  intros [Hl Hn]. destruct (shr_limbs_spec c HB HC w 1 ltac:(lia) Hn) as [H1 [H2 H3]].
  exists (shr_limbs c 1 w). split; [reflexivity|]. split; [split; [lia|exact H2]|]. exact H1.
Qed.

Lemma comp_lt' a b : nn a -> nn b -> (comp a b <? 0) = (V a <? V b).
Proof. intros [A1 A2] [B1 B2]. apply (comp_lt c HB); try assumption. lia. Qed.

(** subtract-normalise-select *)
Lemma sub_norm a b : wf a -> wf b -> exists r0 r, sub c a b = Some r0 /\ norm c r0 = Some r /\ nn r /\ V r = V a - V b
  /\ signbit c (last r 0) = if V a <? V b then 1 else 0.
Proof.
  intros Ha Hb.
  destruct (sub_total c HB HC 0 (X - 1) 0 (X - 1) a b) as [r0 [S1 S2]].
  { apply canon_within; exact (proj2 Ha). } { apply canon_within; exact (proj2 Hb). }
  { rewrite (proj1 Ha), (proj1 Hb); reflexivity. } { lia. } { lia. }
  pose proof (sub_val c a b r0 S1 ltac:(rewrite (proj1 Ha), (proj1 Hb); reflexivity)) as [V0 L0].
  destruct (norm_total c HB HC r0) as [r [N1 [N2 [N3 N4]]]].
  { apply (within_small c (0 - (X - 1)) (X - 1 - 0)); [exact S2|lia|lia]. }
  assert (Hr : nn r) by (split; [rewrite N4, L0; exact (proj1 Ha)|exact N3]).
  exists r0, r. split; [exact S1|]. split; [exact N1|]. split; [exact Hr|]. rewrite N2, V0. split; [reflexivity|].
  pose proof (wf_range a Ha) as Ra. pose proof (wf_range b Hb) as Rb.
  pose proof (nn_last r 1 Hr ltac:(lia) ltac:(rewrite N2, V0; lia)) as Hlast.
  rewrite signbit_spec by lia.
  pose proof (nrm_sign B r HB0 N3 (wf_ne r (proj1 Hr))) as Sg. rewrite N2, V0 in Sg.
  destruct (Z.ltb_spec (last r 0) 0); destruct (Z.ltb_spec (V a) (V b)); try reflexivity; lia.
Qed.

Lemma sub_select a b : wf a -> wf b -> exists r0 r, sub c a b = Some r0 /\ norm c r0 = Some r
  /\ exists s, cmove c a r (1 - signbit c (last r 0)) = Some s /\ wf s
       /\ V s = if V a <? V b then V a else V a - V b.
Proof.
  intros Ha Hb. destruct (sub_norm a b Ha Hb) as [r0 [r [S1 [S2 [S3 [S4 S5]]]]]].
  exists r0, r. split; [exact S1|]. split; [exact S2|]. rewrite S5.
  pose proof (wf_range a Ha) as Ra. pose proof (wf_range b Hb) as Rb.
  destruct (Z.ltb_spec (V a) (V b)) as [Lt|Ge].
  - exists a. rewrite cmove_spec; [|rewrite (proj1 Ha), (proj1 S3); reflexivity|left; reflexivity].
    split; [reflexivity|]. split; [exact Ha|reflexivity].
  - exists r. rewrite cmove_spec; [|rewrite (proj1 Ha), (proj1 S3); reflexivity|right; reflexivity].
    split; [reflexivity|]. split; [apply nn_wf; [exact S3|lia]|exact S4].
Qed.

(** doubling loop *)
Lemma rmod_up_spec up s n fuel : forall m k,
  (forall w, length w = L -> up w = up1 w) ->
  wf s -> wf m -> 0 < n -> V m = n * 2 ^ Z.of_nat k -> V m <= V s ->
  V s < V m * 2 ^ Z.of_nat fuel ->
  exists m' k', rmod_up fuel up s m k = Some (m', k') /\ nn m' /\ V m' = n * 2 ^ Z.of_nat k'
     /\ (k < k')%nat /\ V s < V m' <= 2 * V s.
Proof.
  induction fuel as [|f IH]; intros m k Hup Hs Hm Hn Hv Hle Hf.
  - change (Z.of_nat 0) with 0 in Hf. rewrite Z.pow_0_r in Hf. lia.
  - cbn [rmod_up]. rewrite Hup by exact (proj1 Hm).
    destruct (up1_spec m Hm) as [m1 [U1 [U2 U3]]]. rewrite U1. cbn [bind].
    rewrite (comp_lt' s m1 (wf_nn s Hs) U2).
    assert (E2 : V m1 = n * 2 ^ Z.of_nat (S k)).
    { rewrite U3, Hv, Nat2Z.inj_succ, Z.pow_succ_r by lia. ring. }
    destruct (Z.ltb_spec (V s) (V m1)) as [Lt|Ge].
    + exists m1, (S k). split; [reflexivity|]. split; [exact U2|]. split; [exact E2|]. split; [lia|]. lia.
    + pose proof (wf_range s Hs) as Rs. pose proof (wf_range m Hm) as Rm.
      assert (W1 : wf m1) by (apply nn_wf; [exact U2|lia]).
      destruct (IH m1 (S k) Hup Hs W1 Hn E2 Ge) as [m' [k' [H1 [H2 [H3 [H4 H5]]]]]].
      { rewrite U3. rewrite Nat2Z.inj_succ, Z.pow_succ_r in Hf by lia. lia. }
      exists m', k'. split; [exact H1|]. split; [exact H2|]. split; [exact H3|]. split; [lia|exact H5].
Qed.

Lemma rmod_down_spec down n k : forall s m,
  (forall w, length w = L -> down w = down1 w) -> 0 < n ->
  wf s -> nn m -> V m = n * 2 ^ Z.of_nat k -> V s < V m -> (k <> 0%nat -> V m / 2 < cap) ->
  exists r, rmod_down c down k s m = Some r /\ wf r /\ V r = V s mod n.
Proof.
  induction k as [|k IH]; intros s m Hd Hn Hs Hm Hv Hlt Hcap.
  - exists s. cbn [rmod_down]. split; [reflexivity|]. split; [exact Hs|].
    change (Z.of_nat 0) with 0 in Hv. rewrite Z.pow_0_r in Hv.
    pose proof (wf_range s Hs). rewrite Z.mod_small; lia.
  - cbn [rmod_down]. rewrite Hd by exact (proj1 Hm).
    destruct (down1_spec m Hm) as [m1 [D1 [D2 D3]]]. rewrite D1. cbn [bind].
    assert (E : V m1 = n * 2 ^ Z.of_nat k).
    { rewrite D3, Hv, Nat2Z.inj_succ, Z.pow_succ_r by lia.
      replace (n * (2 * 2 ^ Z.of_nat k)) with (n * 2 ^ Z.of_nat k * 2) by ring. apply Z.div_mul. lia. }
    assert (Pk : 0 < 2 ^ Z.of_nat k) by (apply pow2_pos; lia).
    assert (P1 : 0 < V m1) by (rewrite E; apply Z.mul_pos_pos; lia).
    assert (W1 : wf m1) by (apply nn_wf; [exact D2|split; [lia|rewrite D3; apply Hcap; discriminate]]).
    assert (E2 : V m = 2 * V m1).
    { rewrite E, Hv, Nat2Z.inj_succ, Z.pow_succ_r by lia. ring. }
    destruct (sub_select s m1 Hs W1) as [r0 [r [S1 [S2 [s1 [S3 [S4 S5]]]]]]].
    rewrite S1. cbn [bind]. rewrite S2. cbn [bind]. rewrite S3. cbn [bind].
    pose proof (wf_range m1 W1) as R1.
    destruct (IH s1 m1 Hd Hn S4 D2 E) as [q [Q1 [Q2 Q3]]].
    + rewrite S5. destruct (Z.ltb_spec (V s) (V m1)); lia.
    + intros _. apply Z.div_lt_upper_bound; lia.
    + exists q. split; [exact Q1|]. split; [exact Q2|]. rewrite Q3, S5.
      destruct (Z.ltb_spec (V s) (V m1)) as [Lt|Ge]; [reflexivity|].
      rewrite E. replace (V s - n * 2 ^ Z.of_nat k) with (V s + (- 2 ^ Z.of_nat k) * n) by ring.
      apply Z.mod_add. lia.
Qed.

Lemma fuel_enough m s : wf m -> wf s -> 0 < V m -> V s < V m * 2 ^ Z.of_nat (loop_fuel c m).
Proof.
  intros Hm Hs Hp. pose proof (wf_range s Hs) as R.
  assert (cap <= 2 ^ Z.of_nat (loop_fuel c m)).
  { unfold cap, loop_fuel. rewrite (proj1 Hm).
    assert (B * Z.of_nat L <= Z.of_nat L * C) by (rewrite Z.mul_comm; apply Z.mul_le_mono_nonneg_l; lia).
    assert (0 <= B * Z.of_nat L) by (apply Z.mul_nonneg_nonneg; lia).
    rewrite Z2Nat.id by lia. apply pow2_le. lia. }
  assert (0 < 2 ^ Z.of_nat (loop_fuel c m)) by (apply pow2_pos; lia).
  apply Z.lt_le_trans with (1 * 2 ^ Z.of_nat (loop_fuel c m)); [lia|]. apply Z.mul_le_mono_nonneg_r; lia.
Qed.

(** the whole reduction on normalised operands *)
Lemma reduce_spec up down s n :
  (forall w, length w = L -> up w = up1 w) -> (forall w, length w = L -> down w = down1 w) ->
  wf s -> wf n -> 0 < V n ->
  exists r, (if comp s n <? 0 then Some s else
     mk <- rmod_up (loop_fuel c n) up s n 0 ;; rmod_down c down (snd mk) s (fst mk)) = Some r
   /\ wf r /\ V r = V s mod V n.
Proof.
  intros Hu Hd Hs Hn Hp. rewrite (comp_lt' s n (wf_nn s Hs) (wf_nn n Hn)).
  pose proof (wf_range s Hs) as Rs.
  destruct (Z.ltb_spec (V s) (V n)) as [Lt|Ge].
  - exists s. split; [reflexivity|]. split; [exact Hs|]. rewrite Z.mod_small; lia.
  - destruct (rmod_up_spec up s (V n) (loop_fuel c n) n 0 Hu Hs Hn Hp) as [m [k [U1 [U2 [U3 [U4 U5]]]]]].
    { change (Z.of_nat 0) with 0. rewrite Z.pow_0_r. lia. } { exact Ge. } { apply fuel_enough; assumption. }
    rewrite U1. cbn [bind fst snd].
    apply (rmod_down_spec down (V n) k s m Hd Hp Hs U2 U3 ltac:(lia)).
    intros _. apply Z.div_lt_upper_bound; lia.
Qed.

(** ** division *)
Lemma div_up_spec up s n Le fuel : forall e m k,
  (forall w, length w = L -> up w = up1 w) ->
  wf s -> nn m -> 0 < n -> V m = n * 2 ^ Z.of_nat k ->
  (2 <= Le)%nat -> length e = Le -> nrm B e -> V e = 2 ^ Z.of_nat k ->
  V s < n * 2 ^ (B * Z.of_nat Le) ->
  V m <= 2 * V s \/ k = 0%nat ->
  (V m < cap \/ V s < V m) ->
  V s < V m * 2 ^ Z.of_nat fuel ->
  exists e' m' k', div_up fuel c up s e m k = Some (e', m', k') /\ nn m' /\ V m' = n * 2 ^ Z.of_nat k'
     /\ length e' = Le /\ nrm B e' /\ V e' = 2 ^ Z.of_nat k' /\ V s < V m' /\ (V m' <= 2 * V s \/ k' = 0%nat).
Proof.
  induction fuel as [|f IH]; intros e m k Hup Hs Hm Hn Hv HLe Hel Hen Hev Hfit Hm2 Hmc Hf.
  - cbn [div_up]. rewrite (comp_lt' s m (wf_nn s Hs) Hm).
    change (Z.of_nat 0) with 0 in Hf. rewrite Z.pow_0_r, Z.mul_1_r in Hf.
    replace (V s <? V m) with true by (symmetry; apply Z.ltb_lt; lia).
    exists e, m, k. split; [reflexivity|]. repeat (split; [assumption|]). assumption.
  - cbn [div_up]. rewrite (comp_lt' s m (wf_nn s Hs) Hm).
    destruct (Z.ltb_spec (V s) (V m)) as [Lt|Ge].
    + exists e, m, k. split; [reflexivity|]. repeat (split; [assumption|]). assumption.
    + assert (Pk : 0 < 2 ^ Z.of_nat k) by (apply pow2_pos; lia).
      assert (W : wf m).
      { apply nn_wf; [exact Hm|]. split; [rewrite Hv; apply Z.mul_nonneg_nonneg; lia|]. pose proof (wf_range s Hs). lia. }
      assert (He : canon B e).
      { apply (nrm_canon B e Le HB0 Hen Hel). rewrite Hev. split; [lia|].
        apply (Z.mul_lt_mono_pos_l n); [exact Hn|]. lia. }
      destruct (fshl_spec c HB HC e 1 ltac:(lia) ltac:(lia) Hen) as [e1 [E1 [E2 [E3 E4]]]].
      { pose proof (canon_last c HB e He). change (2 ^ 1) with 2. lia. }
      rewrite E1. cbn [bind]. rewrite Hup by exact (proj1 Hm).
      destruct (up1_spec m W) as [m1 [U1 [U2 U3]]]. rewrite U1. cbn [bind].
      apply IH; try assumption.
      * rewrite U3, Hv, Nat2Z.inj_succ, Z.pow_succ_r by lia. ring.
      * lia.
      * rewrite E2, Hev, Nat2Z.inj_succ, Z.pow_succ_r by lia. change (2 ^ 1) with 2. ring.
      * left. lia.
      * destruct (Z.lt_ge_cases (V m1) cap) as [Q|Q]; [left; exact Q|right]. pose proof (wf_range s Hs). lia.
      * rewrite U3. rewrite Nat2Z.inj_succ, Z.pow_succ_r in Hf by lia. lia.
Qed.
End L.

(** quotient loop: [L] limbs for b and m, [N] limbs for e and the quotient *)
Lemma div_down_spec (L : nat) (HL : (2 <= L)%nat) down edown n k : forall acc b e m,
  (forall w, length w = L -> down w = down1 w) -> (forall w, length w = N -> edown w = down1 w) -> 0 < n ->
  wf L b -> nn L m -> val B m = n * 2 ^ Z.of_nat k -> val B b < val B m -> (k <> 0%nat -> val B m / 2 < cap L) ->
  nn N e -> val B e = 2 ^ Z.of_nat k -> wf N acc ->
  2 ^ Z.of_nat k < 2 * cap N -> val B acc + val B b / n < cap N ->
  exists r, div_down c down edown k acc b e m = Some r /\ wf N r /\ val B r = val B acc + val B b / n.
Proof.
  induction k as [|k IH]; intros acc b e m Hd Hed Hn Hb Hm Hv Hlt Hcap He Hev Hacc Hacc2 Hq.
  - exists acc. cbn [div_down]. split; [reflexivity|]. split; [exact Hacc|].
    change (Z.of_nat 0) with 0 in Hv. rewrite Z.pow_0_r in Hv. pose proof (wf_range L b Hb).
    rewrite Z.div_small; lia.
  - cbn [div_down]. rewrite Hd by exact (proj1 Hm). rewrite Hed by exact (proj1 He).
    destruct (down1_spec L HL m Hm) as [m1 [D1 [D2 D3]]]. rewrite D1. cbn [bind].
    destruct (down1_spec N HN2 e He) as [e1 [K1 [K2 K3]]]. rewrite K1. cbn [bind].
    assert (Pk : 0 < 2 ^ Z.of_nat k) by (apply pow2_pos; lia).
    assert (PS : 2 ^ Z.of_nat (S k) = 2 * 2 ^ Z.of_nat k) by (rewrite Nat2Z.inj_succ, Z.pow_succ_r by lia; reflexivity).
    assert (E : val B m1 = n * 2 ^ Z.of_nat k).
    { rewrite D3, Hv, PS. replace (n * (2 * 2 ^ Z.of_nat k)) with (n * 2 ^ Z.of_nat k * 2) by ring. apply Z.div_mul. lia. }
    assert (Ee : val B e1 = 2 ^ Z.of_nat k).
    { rewrite K3, Hev, PS. rewrite Z.mul_comm. apply Z.div_mul. lia. }
    assert (P1 : 0 < val B m1) by (rewrite E; apply Z.mul_pos_pos; lia).
    assert (W1 : wf L m1) by (apply nn_wf; [exact D2|split; [lia|rewrite D3; apply Hcap; discriminate]]).
    assert (E2 : val B m = 2 * val B m1) by (rewrite E, Hv, PS; ring).
    destruct (sub_norm L HL b m1 Hb W1) as [r0 [r [S1 [S2 [S3 [S4 S5]]]]]].
    rewrite S1. cbn [bind]. rewrite S2. cbn [bind]. rewrite S5.
    pose proof (wf_range L b Hb) as Rb. pose proof (wf_range L m1 W1) as Rm1. pose proof (wf_range N acc Hacc) as Ra.
    assert (We1 : wf N e1).
    { apply nn_wf; [exact K2|]. rewrite Ee. split; [lia|]. rewrite PS in Hacc2. lia. }
    destruct (add_total c HB HC 0 (X - 1) 0 (X - 1) acc e1) as [a1 [A1 A2]].
    { apply canon_within; exact (proj2 Hacc). } { apply canon_within; exact (proj2 We1). }
    { rewrite (proj1 Hacc), (proj1 K2); reflexivity. } { lia. } { lia. }
    pose proof (add_val c acc e1 a1 A1 ltac:(rewrite (proj1 Hacc), (proj1 K2); reflexivity)) as [A3 A4].
    destruct (norm_total c HB HC a1) as [a2 [N1 [N2 [N3 N4]]]].
    { apply (within_small c (0 + 0) (X - 1 + (X - 1))); [exact A2|lia|lia]. }
    assert (La2 : length a2 = length acc) by lia.
    destruct (Z.ltb_spec (val B b) (val B m1)) as [Lt|Ge].
    + change (1 - 1) with 0.
      rewrite (cmove_spec b r 0) by (try (left; reflexivity); rewrite (proj1 Hb), (proj1 S3); reflexivity).
      cbn [bind Z.eqb]. rewrite A1. cbn [bind]. rewrite N1. cbn [bind].
      rewrite (cmove_spec acc a2 0) by (try (left; reflexivity); lia). cbn [bind Z.eqb].
      apply IH; try assumption; try lia.
      intros _. apply Z.div_lt_upper_bound; lia.
    + change (1 - 0) with 1.
      rewrite (cmove_spec b r 1) by (try (right; reflexivity); rewrite (proj1 Hb), (proj1 S3); reflexivity).
      cbn [bind Z.eqb]. rewrite A1. cbn [bind]. rewrite N1. cbn [bind].
      rewrite (cmove_spec acc a2 1) by (try (right; reflexivity); lia).
      change (1 =? 1) with true. cbn [bind].
      assert (Eq : val B b / n = val B r / n + 2 ^ Z.of_nat k).
      { rewrite S4, E. replace (val B b) with ((val B b - n * 2 ^ Z.of_nat k) + 2 ^ Z.of_nat k * n) at 1 by ring.
        apply Z.div_add. lia. }
      assert (Wr : wf L r) by (apply nn_wf; [exact S3|lia]).
      assert (Hrq : 0 <= val B r / n) by (apply Z.div_pos; lia).
      assert (Wa2 : wf N a2).
      { apply nn_wf; [split; [rewrite La2; exact (proj1 Hacc)|exact N3]|]. rewrite N2, A3, Ee. lia. }
      destruct (IH a2 r e1 m1 Hd Hed Hn Wr D2 E) as [q [Q1 [Q2 Q3]]]; try assumption.
      * lia.
      * intros _. apply Z.div_lt_upper_bound; lia.
      * lia.
      * rewrite N2, A3, Ee. lia.
      * exists q. split; [exact Q1|]. split; [exact Q2|]. rewrite Q3, N2, A3, Ee. lia.
Qed.

Lemma big_wf_wf w : big_wf c w <-> wf N w. Proof. reflexivity. Qed.
Lemma dbig_wf_wf w : dbig_wf c w <-> wf (DNLEN c) w. Proof. reflexivity. Qed.
Lemma HD2 : (2 <= DNLEN c)%nat. Proof. unfold DNLEN. lia. Qed.

Lemma one_wf : big_wf c (big_new_int c 1) /\ val B (big_new_int c 1) = 1.
Proof.
  unfold big_new_int. rewrite wrap_id by lia. split; [split|].
  - cbn [length]. rewrite repeat_length. lia.
  - constructor; [lia|apply canon_repeat0; assumption].
  - cbn [val]. rewrite val_repeat0. lia.
Qed.
Lemma zero_wf : big_wf c (big_new c) /\ val B (big_new c) = 0.
Proof.
  split; [apply big_new_wf; assumption|]. unfold big_new. apply val_repeat0.
Qed.

Lemma rmod_spec s n : big_wf c s -> big_wf c n -> 0 < val B n ->
  exists r, rmod c s n = Some r /\ big_wf c r /\ val B r = val B s mod val B n.
Proof.
  intros Hs Hn Hp. unfold rmod. rewrite (norm_wf c Hok s Hs). cbn [bind].
  exact (reduce_spec N HN2 (big_up c) (big_down c) s n (fun w _ => eq_refl) (fun w _ => big_down_eq N HN2 w) Hs Hn Hp).
Qed.

(** widening copy *)
Lemma scopy_spec x : big_wf c x -> dbig_wf c (scopy c x) /\ val B (scopy c x) = val B x.
Proof.
  intros [Hl Hc]. unfold scopy.
  assert (Hg : 0 <= get x (N - 1) < X) by (apply canon_get; assumption).
  rewrite bmask_land by exact HB. rewrite Z.mod_small by exact Hg.
  rewrite Z.shiftr_div_pow2, Z.div_small by lia.
  assert (Ex : x = firstn (N - 1) x ++ [get x (N - 1)]).
  { rewrite <- (firstn_skipn (N - 1) x) at 1. f_equal. rewrite get_nth by lia. f_equal.
    apply skipn_all2. lia. }
  split; [split|].
  - rewrite app_length, firstn_length_le by lia. cbn [length]. rewrite repeat_length. unfold DNLEN. lia.
  - apply canon_app; [apply canon_firstn; exact Hc|]. constructor; [exact Hg|]. constructor; [lia|]. apply canon_repeat0; assumption.
  - rewrite Ex at 3. rewrite !val_app by assumption. cbn [val]. rewrite val_repeat0. ring.
Qed.

Lemma dcopy_spec d : dbig_wf c d -> val B d < cap N -> big_wf c (big_dcopy c d) /\ val B (big_dcopy c d) = val B d.
Proof.
  intros [Hl Hc] Hv. unfold big_dcopy. split; [split|].
  - rewrite firstn_length_le; [reflexivity|]. rewrite Hl. unfold DNLEN. lia.
  - apply canon_firstn. exact Hc.
  - apply canon_high_zero; try assumption. rewrite Hl. unfold DNLEN. lia.
Qed.

Lemma dmod_spec s n : dbig_wf c s -> big_wf c n -> 0 < val B n ->
  exists r, dmod c s n = Some r /\ big_wf c r /\ val B r = val B s mod val B n.
Proof.
  intros Hs Hn Hp. unfold dmod. rewrite (norm_canon_id c HB HC s (proj2 Hs)). cbn [bind].
  destruct (scopy_spec n Hn) as [W E].
  destruct (reduce_spec (DNLEN c) HD2 (dbig_up c) (dbig_down c) s (scopy c n)
     (fun w H => dbig_up_eq (DNLEN c) HD2 w H) (fun w H => dbig_down_eq (DNLEN c) HD2 w H) Hs W ltac:(lia)) as [r [R1 [R2 R3]]].
  rewrite E in R3.
  assert (Rr : val B r < cap N).
  { rewrite R3. pose proof (Z.mod_pos_bound (val B s) (val B n) Hp). pose proof (wf_range N n Hn). lia. }
  destruct (dcopy_spec r R2 Rr) as [Q1 Q2].
  exists (big_dcopy c r). split; [|split; [exact Q1|rewrite Q2; exact R3]].
  destruct (comp s (scopy c n) <? 0).
  - injection R1 as ->. reflexivity.
  - destruct (rmod_up (loop_fuel c (scopy c n)) (dbig_up c) s (scopy c n) 0) as [mk|]; [|discriminate].
    cbn [bind] in *. rewrite R1. reflexivity.
Qed.

Lemma div_spec s n : big_wf c s -> big_wf c n -> 0 < val B n ->
  exists r, div c s n = Some r /\ big_wf c r /\ val B r = val B s / val B n.
Proof.
  intros Hs Hn Hp. unfold div. rewrite (norm_wf c Hok s Hs). cbn [bind].
  destruct one_wf as [O1 O2]. destruct zero_wf as [Z1 Z2].
  pose proof (wf_range N s Hs) as Rs. pose proof (wf_range N n Hn) as Rn.
  assert (Hq : val B s / val B n < cap N).
  { apply Z.div_lt_upper_bound; [exact Hp|]. nia. }
  destruct (div_up_spec N HN2 (big_up c) s (val B n) N (loop_fuel c n) (big_new_int c 1) n 0
     (fun w _ => eq_refl) Hs (wf_nn N n Hn) Hp) as [e [m [k [U1 [U2 [U3 [U4 [U5 [U6 [U7 U8]]]]]]]]]].
  { change (Z.of_nat 0) with 0. rewrite Z.pow_0_r. lia. } { exact HN2. } { exact (proj1 O1). }
  { apply canon_nrm; exact (proj2 O1). } { rewrite O2. reflexivity. } { fold (cap N). nia. } { right. reflexivity. }
  { left. lia. } { apply (fuel_enough N HN2); assumption. }
  rewrite U1. cbn [bind].
  destruct (div_down_spec N HN2 (big_down c) (big_down c) (val B n) k (big_new c) s e m
     (fun w _ => big_down_eq N HN2 w) (fun w _ => big_down_eq N HN2 w) Hp Hs U2 U3 U7) as [q [Q1 [Q2 Q3]]].
  { intros Hk. destruct U8 as [U8|U8]; [|congruence]. apply Z.div_lt_upper_bound; lia. }
  { split; assumption. } { exact U6. } { exact Z1. }
  { pose proof (cap_pos N HN2) as PN. destruct U8 as [U8|U8].
    - rewrite U3 in U8.
      assert (0 < 2 ^ Z.of_nat k) by (apply pow2_pos; lia).
      assert (1 * 2 ^ Z.of_nat k <= val B n * 2 ^ Z.of_nat k) by (apply Z.mul_le_mono_nonneg_r; lia). lia.
    - rewrite U8. change (2 ^ Z.of_nat 0) with 1. lia. }
  { rewrite Z2. lia. }
  exists q. split; [exact Q1|]. split; [exact Q2|]. rewrite Q3, Z2. lia.
Qed.

Lemma ddiv_spec s n : dbig_wf c s -> big_wf c n -> 0 < val B n -> val B s < val B n * bmax c ->
  exists r, ddiv c s n = Some r /\ big_wf c r /\ val B r = val B s / val B n.
Proof.
  intros Hs Hn Hp Hfit. unfold ddiv. rewrite (norm_canon_id c HB HC s (proj2 Hs)). cbn [bind].
  destruct one_wf as [O1 O2]. destruct zero_wf as [Z1 Z2]. destruct (scopy_spec n Hn) as [W E].
  pose proof (wf_range _ s Hs) as Rs. pose proof (wf_range _ n Hn) as Rn. pose proof (wf_range _ _ W) as Rw.
  change (bmax c) with (cap N) in Hfit.
  assert (Hq : val B s / val B n < cap N) by (apply Z.div_lt_upper_bound; lia).
  destruct (div_up_spec (DNLEN c) HD2 (dbig_up c) s (val B n) N (loop_fuel c (scopy c n)) (big_new_int c 1) (scopy c n) 0
     (fun w H => dbig_up_eq (DNLEN c) HD2 w H) Hs (wf_nn _ _ W) Hp) as [e [m [k [U1 [U2 [U3 [U4 [U5 [U6 [U7 U8]]]]]]]]]].
  { change (Z.of_nat 0) with 0. rewrite Z.pow_0_r. lia. } { exact HN2. } { exact (proj1 O1). }
  { apply canon_nrm; exact (proj2 O1). } { rewrite O2. reflexivity. } { exact Hfit. } { right. reflexivity. }
  { left. lia. } { apply (fuel_enough (DNLEN c) HD2); [exact W|exact Hs|lia]. }
  rewrite U1. cbn [bind].
  assert (PN : 0 < cap N) by apply (cap_pos N HN2).
  destruct (div_down_spec (DNLEN c) HD2 (dbig_down c) (dbig_down c) (val B n) k (big_new c) s e m
     (fun w H => dbig_down_eq (DNLEN c) HD2 w H) (fun w H => dbig_down_eq N HN2 w H) Hp Hs U2 U3 U7) as [q [Q1 [Q2 Q3]]].
  { intros Hk. destruct U8 as [U8|U8]; [|congruence]. apply Z.div_lt_upper_bound; lia. }
  { split; assumption. } { exact U6. } { exact Z1. }
  { destruct U8 as [U8|U8].
    - assert (0 < 2 ^ Z.of_nat k) by (apply pow2_pos; lia). rewrite U3 in U8.
      assert (val B n * 2 ^ Z.of_nat k < val B n * (2 * cap N)) by lia.
      apply Z.mul_lt_mono_pos_l in H0; lia.
    - rewrite U8. change (2 ^ Z.of_nat 0) with 1. lia. }
  { rewrite Z2. lia. }
  exists q. split; [exact Q1|]. split; [exact Q2|]. rewrite Q3, Z2. lia.
Qed.

Lemma modmul_spec a b m : big_wf c a -> big_wf c b -> big_wf c m -> 0 < val B m ->
  exists r, modmul c a b m = Some r /\ big_wf c r /\ val B r = (val B a * val B b) mod val B m.
Proof.
  intros Ha Hb Hm Hp. unfold modmul.
  destruct (rmod_spec a m Ha Hm Hp) as [a1 [A1 [A2 A3]]]. rewrite A1. cbn [bind].
  destruct (rmod_spec b m Hb Hm Hp) as [b1 [B1 [B2 B3]]]. rewrite B1. cbn [bind].
  destruct (mul_spec c Hok a1 b1 A2 B2) as [d [D1 [D2 D3]]]. rewrite D1. cbn [bind].
  destruct (dmod_spec d m D2 Hm Hp) as [r [R1 [R2 R3]]]. exists r. split; [exact R1|]. split; [exact R2|].
  rewrite R3, D3, A3, B3. symmetry. apply Z.mul_mod. lia.
Qed.
Lemma modsqr_spec a m : big_wf c a -> big_wf c m -> 0 < val B m ->
  exists r, modsqr c a m = Some r /\ big_wf c r /\ val B r = (val B a * val B a) mod val B m.
Proof.
  intros Ha Hm Hp. unfold modsqr.
  destruct (rmod_spec a m Ha Hm Hp) as [a1 [A1 [A2 A3]]]. rewrite A1. cbn [bind].
  destruct (sqr_spec c Hok a1 A2) as [d [D1 [D2 D3]]]. rewrite D1. cbn [bind].
  destruct (dmod_spec d m D2 Hm Hp) as [r [R1 [R2 R3]]]. exists r. split; [exact R1|]. split; [exact R2|].
  rewrite R3, D3, A3. symmetry. apply Z.mul_mod. lia.
Qed.
(** modneg returns m - (a mod m): congruent to -a, in (0, m], limbs not normalised *)
Lemma modneg_spec a m : big_wf c a -> big_wf c m -> 0 < val B m ->
  exists r, modneg c a m = Some r /\ length r = N /\ val B r = val B m - val B a mod val B m.
Proof.
  intros Ha Hm Hp. unfold modneg.
  destruct (rmod_spec a m Ha Hm Hp) as [a1 [A1 [A2 A3]]]. rewrite A1. cbn [bind].
  destruct (sub_norm N HN2 m a1 Hm A2) as [r0 [r [S1 _]]].
  exists r0. split; [exact S1|].
  pose proof (sub_val c m a1 r0 S1 ltac:(rewrite (proj1 Hm), (proj1 A2); reflexivity)) as [V0 L0].
  split; [rewrite L0; exact (proj1 Hm)|]. rewrite V0, A3. reflexivity.
Qed.

Lemma parity_wf w : big_wf c w -> parity w = val B w mod 2.
Proof.
  intros [Hl Hc]. apply parity_spec; try assumption.
  - apply (wf_ne N HN2). exact Hl.
  - apply (canon_get B w 0 HB0 Hc).
Qed.

Lemma powmod_loop_spec fuel : forall a z s m, big_wf c a -> big_wf c z -> big_wf c s -> big_wf c m -> 1 < val B m ->
  0 <= val B a < val B m ->
  val B z < 2 ^ (Z.of_nat fuel - 1) -> (0 < fuel)%nat ->
  exists r, powmod_loop fuel c a z s m = Some r /\ big_wf c r
    /\ val B r = (val B a * val B s ^ val B z) mod val B m.
Proof.
  induction fuel as [|f IH]; intros a z s m Ha Hz Hs Hm Hp Har Hf Hf0; [lia|].
  cbn [powmod_loop]. rewrite (parity_wf z Hz).
  assert (Hzne : z <> []) by (apply (wf_ne N HN2); exact (proj1 Hz)).
  destruct (fshr_canon c HB HC z 1 ltac:(lia) (proj2 Hz) Hzne) as [z1 [Z1 [Z2 [Z3 Z4]]]].
  rewrite Z1. cbn [bind snd]. change (2 ^ 1) with 2 in *.
  assert (Wz1 : big_wf c z1) by (split; [rewrite Z4; exact (proj1 Hz)|exact Z3]).
  pose proof (wf_range N z Hz) as Rz. pose proof (wf_range N z1 Wz1) as Rz1.
  pose proof (Z.div_mod (val B z) 2 ltac:(lia)) as D. rewrite <- Z2 in D.
  pose proof (Z.mod_pos_bound (val B z) 2 ltac:(lia)) as Mb.
  assert (Step : exists a1, (if val B z mod 2 =? 1 then modmul c a s m else Some a) = Some a1 /\ big_wf c a1
     /\ val B a1 = (val B a * val B s ^ (val B z mod 2)) mod val B m /\ 0 <= val B a1 < val B m).
  { destruct (Z.eqb_spec (val B z mod 2) 1) as [E|E].
    - destruct (modmul_spec a s m Ha Hs Hm ltac:(lia)) as [a1 [A1 [A2 A3]]]. exists a1. rewrite E, Z.pow_1_r.
      split; [exact A1|]. split; [exact A2|]. split; [exact A3|]. rewrite A3. apply Z.mod_pos_bound. lia.
    - exists a. replace (val B z mod 2) with 0 by lia. rewrite Z.pow_0_r, Z.mul_1_r.
      split; [reflexivity|]. split; [exact Ha|]. split; [rewrite Z.mod_small; lia|exact Har]. }
  destruct Step as [a1 [S1 [S2 [S3 S4]]]]. rewrite S1. cbn [bind].
  rewrite (iszilch_spec c HB z1 (canon_nrm _ _ Z3)).
  destruct (Z.eqb_spec (val B z1) 0) as [E0|E0].
  - exists a1. split; [reflexivity|]. split; [exact S2|]. rewrite S3. do 3 f_equal. lia.
  - destruct (modsqr_spec s m Hs Hm ltac:(lia)) as [s1 [Q1 [Q2 Q3]]]. rewrite Q1. cbn [bind].
    assert (Hf1 : (0 < f)%nat). { destruct f; [cbn in Hf|lia]. lia. }
    destruct (IH a1 z1 s1 m S2 Wz1 Q2 Hm Hp S4) as [r [R1 [R2 R3]]].
    { replace (Z.of_nat (S f) - 1) with (1 + (Z.of_nat f - 1)) in Hf by lia.
      rewrite Z.pow_add_r in Hf by lia. change (2 ^ 1) with 2 in Hf. lia. } { exact Hf1. }
    exists r. split; [exact R1|]. split; [exact R2|]. rewrite R3, S3, Q3.
    rewrite Z.mul_mod_idemp_l by lia.
    rewrite <- Z.mul_mod_idemp_r, <- (Zpow_facts.Zpower_mod (val B s * val B s) (val B z1) (val B m)) by lia.
    rewrite Z.mul_mod_idemp_r by lia. f_equal.
    rewrite <- Z.mul_assoc. f_equal. rewrite D at 2. rewrite (Z.add_comm (2 * val B z1)), Z.pow_add_r by lia.
    f_equal. rewrite Z.pow_mul_r by lia. f_equal. ring.
Qed.
End WithCfg.
