(** Big::random and Big::randomnum. *)
From Verif Require Import Base.Word Base.Arr Model.Big Model.Roms Model.Rand Model.EccProto Spec.BigSpec Spec.Bytes Spec.ProtoSpec
  Proof.BigVal Proof.BigShift Proof.BigBytes Proof.BigMod Proof.BigInv Proof.RandProof.

Section RandNum.
Variable rm : rom.
Notation c := (r_cfg rm).
Variable bd : build.
Hypothesis Hok : cfg_ok c.
Notation B := (BASEBITS c).
Notation V := (val B).
Let F := cfg_ok_facts c Hok.

Definition hor (a : Z) (l : list Z) : Z := fold_left (fun a b => 2 * a + b) l a.
Definition pend (j : nat) (x : Z) : list Z := if (j =? 0)%nat then [] else map (fun i => (x / 2 ^ Z.of_nat i) mod 2) (seq 1 (8 - j)).
Definition fresh (j n : nat) : nat := ((n + (j + 7) mod 8) / 8)%nat.

Lemma pend_1 x : lsb_bits x = x mod 2 :: pend 1 x.
Proof. unfold lsb_bits, pend. cbn [Nat.eqb]. change (seq 0 8) with (0%nat :: seq 1 7). cbn [map]. change (2 ^ Z.of_nat 0) with 1. rewrite Z.div_1_r. reflexivity. Qed.
Lemma pend_step j x : (0 < j < 8)%nat -> pend j x = (Z.shiftr x 1) mod 2 :: pend (S j mod 8) (Z.shiftr x 1).
Proof.
  intros H. unfold pend. destruct (Nat.eqb_spec j 0); [lia|]. replace (8 - j)%nat with (S (7 - j))%nat by lia. cbn [seq map]. change (2 ^ Z.of_nat 1) with (2 ^ 1). rewrite <- Z.shiftr_div_pow2 by lia. f_equal.
  destruct (Nat.eqb_spec (S j mod 8) 0) as [E|E].
  - assert (j = 7%nat). { destruct (Nat.eq_dec j 7); [assumption|]. rewrite Nat.mod_small in E by lia. lia. } subst j. reflexivity.
  - assert (j <> 7%nat). { intros ->. apply E. reflexivity. } rewrite Nat.mod_small by lia. replace (8 - S j)%nat with (7 - j)%nat by lia.
    rewrite <- seq_shift, map_map. rewrite (map_ext_in _ (fun i => (Z.shiftr x 1 / 2 ^ Z.of_nat i) mod 2)); [reflexivity|].
    intros i Hi. rewrite Z.shiftr_div_pow2 by lia. rewrite Z.div_div by (try apply pow2_pos; lia). rewrite <- Z.pow_add_r by lia. do 3 f_equal. lia.
Qed.
Lemma fresh_step j n : (0 < j < 8)%nat -> fresh j (S n) = fresh (S j mod 8) n.
Proof.
  intros H. unfold fresh. assert (C : (j = 1 \/ j = 2 \/ j = 3 \/ j = 4 \/ j = 5 \/ j = 6 \/ j = 7)%nat) by lia.
  destruct C as [->|[->|[->|[->|[->|[->| ->]]]]]]; match goal with |- (?a / 8)%nat = (?b / 8)%nat => let a' := eval cbn in a in let b' := eval cbn in b in change a with a'; change b with b' end; f_equal; lia.
Qed.
Lemma fresh_0 n : fresh 0 (S n) = S (fresh 1 n).
Proof. unfold fresh. change ((0 + 7) mod 8)%nat with 7%nat. change ((1 + 7) mod 8)%nat with 0%nat. replace (S n + 7)%nat with (n + 0 + 1 * 8)%nat by lia. rewrite Nat.div_add by lia. lia. Qed.
Lemma jstep j : (j < 8)%nat -> Z.land (Z.of_nat j + 1) 7 = Z.of_nat (S j mod 8).
Proof. intros H. change 7 with (Z.ones 3). rewrite Z.land_ones by lia. change (2 ^ 3) with 8. rewrite Nat2Z.inj_mod, Nat2Z.inj_succ. reflexivity. Qed.
Lemma land1 x : Z.land x 1 = x mod 2.
Proof. change 1 with (Z.ones 1) at 1. rewrite Z.land_ones by lia. reflexivity. Qed.

Lemma shl1_step m b (n : nat) : canon B m -> length m = n -> (2 <= n)%nat -> V m * 2 < 2 ^ (B * Z.of_nat n) -> 0 <= b < 2 ->
  exists m1 m2, shl c m 1 = Some m1 /\ dshl c m 1 = Some m1 /\ add_low c m1 b = Some m2 /\ canon B m2 /\ V m2 = 2 * V m + b /\ length m2 = n.
Proof.
  intros Hc Hl Hn Hv Hb. pose proof (cf_B c F) as HB. pose proof (cf_C c F) as HC.
  destruct (shl_spec c ltac:(lia) ltac:(lia) m 1 ltac:(lia) Hc ltac:(lia)) as [m1 [H1 [H2 [H3 H4]]]].
  - assert (1 <= Z.of_nat (length m)) by lia. assert (B * 1 <= B * Z.of_nat (length m)) by (apply Z.mul_le_mono_nonneg_l; lia). lia.
  - rewrite Hl. change (2 ^ 1) with 2. exact Hv.
  - destruct (add_low_spec c Hok m1 b 1 H3 ltac:(lia)) as [m2 [A1 [A2 [A3 A4]]]].
    + rewrite H2. apply Z.mod_mul. discriminate.
    + change (2 ^ 1) with 2. exact Hb.
    + intros ->. cbn in H4. lia.
    + exists m1, m2. split; [exact H1|]. split.
      * unfold dshl. replace (1 / B) with 0 by (symmetry; apply Z.div_small; lia). cbn [Z.to_nat]. replace (0 + 2 <=? length m)%nat with true by (symmetry; apply Nat.leb_le; lia). exact H1.
      * split; [exact A1|]. split; [exact A2|]. split; [rewrite A3, H2; change (2 ^ 1) with 2; ring|lia].
Qed.
Lemma land_bit x : 0 <= Z.land x 1 < 2. Proof. rewrite land1. apply Z.mod_pos_bound. lia. Qed.
Lemma random_loop_ok shlf (L : nat) : (2 <= L)%nat -> (forall w, length w = L -> shlf w = shl c w 1 \/ shlf w = dshl c w 1) ->
  forall n j x d rng i, (j < 8)%nat -> sane rng -> canon B d -> length d = L -> 0 <= V d < 2 ^ i -> 0 <= i -> i + Z.of_nat n <= B * Z.of_nat L ->
  exists bs rng' d', getbytes bd (fresh j n) rng = Some (bs, rng') /\ random_loop rm bd shlf n (Z.of_nat j) x d rng = Some (d', rng') /\ sane rng' /\ canon B d' /\ length d' = L /\ bytes bs /\
    V d' = hor (V d) (firstn n (pend j x ++ concat (map lsb_bits bs))).
Proof.
  intros HL Hs. induction n as [|n IH]; intros j x d rng i Hj Sr Hc Hl Hv Hi Hcap.
  - assert (E : fresh j 0 = 0%nat) by (unfold fresh; apply Nat.div_small; apply Nat.mod_upper_bound; lia). rewrite E. exists [], rng, d. cbn. repeat (split; [assumption || reflexivity || constructor|]). reflexivity.
  - cbn [random_loop]. assert (Hi2 : 2 ^ (i + 1) = 2 * 2 ^ i) by (rewrite Z.pow_add_r by lia; change (2 ^ 1) with 2; ring).
    assert (HC2 : V d * 2 < 2 ^ (B * Z.of_nat L)). { apply Z.lt_le_trans with (2 ^ (i + 1)); [lia|]. apply pow2_le. lia. }
    assert (ST : forall y rng1, sane rng1 -> exists m1 m2, shlf d = Some m1 /\ add_low c m1 (Z.land y 1) = Some m2 /\ canon B m2 /\ V m2 = 2 * V d + Z.land y 1 /\ length m2 = L).
    { intros y rng1 _. destruct (shl1_step d (Z.land y 1) L Hc Hl HL HC2 (land_bit y)) as [m1 [m2 [A1 [A2 [A3 [A4 [A5 A6]]]]]]]. exists m1, m2.
      split; [destruct (Hs d Hl) as [-> | ->]; assumption|]. auto. }
    destruct (Nat.eqb_spec j 0) as [J0|J0].
    + subst j. change (Z.of_nat 0 =? 0) with true. cbv iota. destruct (getbyte_sane bd rng Sr) as [y [rng1 [E1 [Hy S1]]]]. rewrite E1. cbn [bind fst snd].
      destruct (ST y rng1 S1) as [m1 [m2 [A1 [A2 [A3 [A4 A5]]]]]]. rewrite A1. cbn [bind]. rewrite A2. cbn [bind]. pose proof (land_bit y).
      destruct (IH 1%nat y m2 rng1 (i + 1) ltac:(lia) S1 A3 A5 ltac:(lia) ltac:(lia) ltac:(lia)) as [bs [rng' [d' [R1 [R2 [R3 [R4 [R5 [R6 R7]]]]]]]]].
      exists (y :: bs), rng', d'. rewrite fresh_0. cbn [getbytes]. rewrite E1. cbn [bind fst snd]. rewrite R1. cbn [bind fst snd]. split; [reflexivity|].
      change (Z.land (Z.of_nat 0 + 1) 7) with (Z.of_nat 1). split; [exact R2|]. split; [exact R3|]. split; [exact R4|]. split; [exact R5|]. split; [constructor; assumption|].
      rewrite R7, A4, land1. unfold pend at 2. cbn [Nat.eqb app map concat]. rewrite pend_1. cbn [app firstn]. reflexivity.
    + replace (Z.of_nat j =? 0) with false by (symmetry; apply Z.eqb_neq; lia). cbn [bind fst snd].
      destruct (ST (Z.shiftr x 1) rng Sr) as [m1 [m2 [A1 [A2 [A3 [A4 A5]]]]]]. rewrite A1. cbn [bind]. rewrite A2. cbn [bind]. pose proof (land_bit (Z.shiftr x 1)).
      rewrite jstep by exact Hj.
      destruct (IH (S j mod 8)%nat (Z.shiftr x 1) m2 rng (i + 1) ltac:(apply Nat.mod_upper_bound; lia) Sr A3 A5 ltac:(lia) ltac:(lia) ltac:(lia)) as [bs [rng' [d' [R1 [R2 [R3 [R4 [R5 [R6 R7]]]]]]]]].
      exists bs, rng', d'. rewrite fresh_step by lia. split; [exact R1|]. split; [exact R2|]. split; [exact R3|]. split; [exact R4|]. split; [exact R5|]. split; [exact R6|].
      rewrite R7, A4, land1. rewrite (pend_step j x) by lia. cbn [app firstn]. reflexivity.
Qed.
Lemma fresh_bytes n : fresh 0 n = bytes_for n.
Proof. reflexivity. Qed.
Theorem random_ok rng : sane rng -> exists m bs rng', big_random rm bd rng = Some (m, rng') /\ getbytes bd (bytes_for (8 * Z.to_nat (MODBYTES c))) rng = Some (bs, rng') /\ sane rng' /\ bytes bs /\
  big_wf c m /\ V m = bit_int (8 * Z.to_nat (MODBYTES c)) bs.
Proof.
  intros Sr. unfold big_random. pose proof (cf_M c F). pose proof (cf_cap c F). destruct (zero_wf c Hok) as [[W1 W2] W3].
  destruct (random_loop_ok (fun m => shl c m 1) (NLEN c) (cf_N c F) (fun w _ => or_introl eq_refl) (8 * Z.to_nat (MODBYTES c)) 0%nat 0 (big_new c) rng 0 ltac:(lia) Sr W2 W1) as [bs [rng' [d' [R1 [R2 [R3 [R4 [R5 [R6 R7]]]]]]]]].
  - rewrite W3. change (2 ^ 0) with 1. lia.
  - lia.
  - lia.
  - exists d', bs, rng'. split; [exact R2|]. split; [exact R1|]. split; [exact R3|]. split; [exact R6|]. split; [split; assumption|]. rewrite R7, W3. reflexivity.
Qed.
Theorem randomnum_ok q rng : big_wf c q -> 0 < V q -> sane rng -> exists m bs rng', randomnum rm bd q rng = Some (m, rng') /\
  getbytes bd (bytes_for (2 * Z.to_nat (Z.log2 (V q) + 1))) rng = Some (bs, rng') /\ sane rng' /\ bytes bs /\
  big_wf c m /\ V m = bit_int (2 * Z.to_nat (Z.log2 (V q) + 1)) bs mod V q.
Proof.
  intros Wq Pq Sr. unfold randomnum. pose proof (cf_B c F) as HB. pose proof (cf_C c F) as HC.
  rewrite (nbits_spec c Hok q q (norm_wf c Hok q Wq) (proj2 Wq)). destruct (Z.eqb_spec (V q) 0) as [E|_]; [lia|]. cbn [bind].
  pose proof (Z.log2_nonneg (V q)) as L0. replace (Z.to_nat (2 * (Z.log2 (V q) + 1))) with (2 * Z.to_nat (Z.log2 (V q) + 1))%nat by lia.
  pose proof (brange c Hok q Wq) as Rq. assert (LB : Z.log2 (V q) + 1 <= B * Z.of_nat (NLEN c)).
  { apply Z.le_succ_l. apply Z.log2_lt_pow2; [exact Pq|]. exact (proj2 Rq). }
  pose proof (cf_N c F) as HN.
  destruct (random_loop_ok (fun m => dshl c m 1) (DNLEN c) ltac:(unfold DNLEN; lia) (fun w _ => or_intror eq_refl) (2 * Z.to_nat (Z.log2 (V q) + 1)) 0%nat 0 (dbig_new c) rng 0 ltac:(lia) Sr) as [bs [rng' [d' [R1 [R2 [R3 [R4 [R5 [R6 R7]]]]]]]]].
  - apply canon_repeat0. lia.
  - apply repeat_length.
  - unfold dbig_new. rewrite val_repeat0. change (2 ^ 0) with 1. lia.
  - lia.
  - unfold DNLEN. rewrite !Nat2Z.inj_mul, Z2Nat.id by lia. change (Z.of_nat 2) with 2. lia.
  - change (Z.of_nat 0) with 0 in R2. rewrite R2. cbn [bind fst snd]. destruct (dmod_spec c Hok d' q (conj R5 R4) Wq Pq) as [m [M1 [M2 M3]]]. rewrite M1. cbn [bind].
    exists m, bs, rng'. split; [reflexivity|]. split; [exact R1|]. split; [exact R3|]. split; [exact R6|]. split; [exact M2|]. rewrite M3, R7. unfold dbig_new. rewrite val_repeat0. reflexivity.
Qed.
End RandNum.
