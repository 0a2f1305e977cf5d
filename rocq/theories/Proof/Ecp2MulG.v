(** Scalar multiplication of ecp2.rs over any group that the point operations implement (Proof/EcpMul.v for ECP2).
    [den] holds of operands and results, [den'] of their negations, whose excess counters are larger. *)
From Verif Require Import Base.Word Model.Big Model.Roms Model.Fp Model.Fp2 Model.Ecp Model.Ecp2 Model.Ecp2Mul Spec.BigSpec
  Proof.BigVal Proof.BigMod Proof.BigShift Proof.BigMonty Proof.BigMul Proof.BigMisc Proof.BigBytes Proof.FpBase Proof.BigJacobi Proof.BigInv Proof.EcpMul.
From Coq Require Import Znumtheory.

Section EMul2.
Variable r : rom.
Variable tw : twist.
Variable bi : Z.
Notation c := (r_cfg r).
Notation V := (val (BASEBITS c)).
Hypothesis Hok : cfg_ok c.
Variable G : Type.
Variables (g0 : G) (gadd : G -> G -> G) (gneg : G -> G) (on : G -> Prop).
Hypothesis HG : cgroup G g0 gadd gneg on.
Variables den den' : ecp2 -> G -> Prop.
Variable nrml : ecp2 -> G -> Prop.
Record pops2 : Prop := mkpops2 {
  po_on : forall P A, den' P A -> on A;
  po_up : forall P A, den P A -> den' P A;
  po_add : forall P Q A C, den' P A -> den' Q C -> exists R, ecp2_add r tw bi P Q = Some R /\ den R (gadd A C);
  po_dbl : forall P A, den' P A -> exists R, ecp2_dbl r tw bi P = Some R /\ den R (gadd A A);
  po_neg : forall P A, den P A -> exists R, ecp2_neg r P = Some R /\ den' R (gneg A);
  po_cmove : forall P Q A C d, den' P A -> den' Q C -> d = 0 \/ d = 1 -> ecp2_cmove r P Q d = Some (if d =? 1 then Q else P);
  po_inf : forall P A, den P A -> exists b, ecp2_is_infinity r P = Some b /\ (b = true <-> A = g0);
  po_new : exists R, ecp2_new r = Some R /\ den R g0 /\ nrml R g0;
  po_affine : forall P A, den P A -> exists R, ecp2_affine r P = Some R /\ den R A /\ nrml R A }.
Hypothesis HP : pops2.
Notation zt := (ztimes G g0 gadd gneg).
Notation Lin := (lin G g0 gadd gneg).
Let up := po_up HP.
Lemma po_sub P Q A C : den' P A -> den Q C -> exists R, ecp2_sub r tw bi P Q = Some R /\ den R (gadd A (gneg C)).
Proof. intros H1 H2. unfold ecp2_sub. destruct (po_neg HP Q C H2) as [N [E1 E2]]. rewrite E1. cbn [bind]. apply (po_add HP); assumption. Qed.
Lemma dbln_ok n : forall P A, den P A -> exists R, dbln2 r tw bi n P = Some R /\ den R (zt (2 ^ Z.of_nat n) A).
Proof.
  induction n as [|n IH]; intros P A H; cbn [dbln2].
  - exists P. split; [reflexivity|]. change (2 ^ Z.of_nat 0) with 1. rewrite (ztimes_1 G g0 gadd gneg on HG) by exact (po_on HP _ _ (up _ _ H)). exact H.
  - destruct (po_dbl HP P A (up _ _ H)) as [P1 [E1 E2]]. rewrite E1. cbn [bind]. destruct (IH P1 _ E2) as [R [R1 R2]]. exists R. split; [exact R1|].
    pose proof (po_on HP _ _ (up _ _ H)) as HA. rewrite <- (ztimes_2 G g0 gadd gneg on HG) in R2 by exact HA. rewrite (ztimes_mul G g0 gadd gneg on HG) in R2 by exact HA.
    rewrite Nat2Z.inj_succ, Z.pow_succ_r, Z.mul_comm by lia. exact R2.
Qed.
Lemma win_table_ok n : forall P Q A B, den P A -> den Q B -> exists W, win_table2 r tw bi n P Q = Some W /\ length W = n /\
  forall i w, nth_error W i = Some w -> den w (gadd A (zt (Z.of_nat i + 1) B)).
Proof.
  induction n as [|n IH]; intros P Q A B H1 H2; cbn [win_table2].
  - exists []. split; [reflexivity|]. split; [reflexivity|]. intros [|i] w E; discriminate E.
  - destruct (po_add HP P Q A B (up _ _ H1) (up _ _ H2)) as [W1 [E1 E2]]. rewrite E1. cbn [bind]. destruct (IH W1 Q _ B E2 H2) as [W [R1 [R2 R3]]]. rewrite R1. cbn [bind].
    pose proof (po_on HP _ _ (up _ _ H1)) as HA. pose proof (po_on HP _ _ (up _ _ H2)) as HB.
    exists (W1 :: W). split; [reflexivity|]. split; [cbn; congruence|]. intros [|i] w E; cbn [nth_error] in E.
    + injection E as <-. change (Z.of_nat 0 + 1) with 1. rewrite (ztimes_1 G g0 gadd gneg on HG) by exact HB. exact E2.
    + specialize (R3 i w E). rewrite (cg_assoc _ _ _ _ _ HG) in R3; [|exact HA|exact HB|apply (ztimes_on G g0 gadd gneg on HG); exact HB].
      replace (gadd B (zt (Z.of_nat i + 1) B)) with (zt (Z.of_nat (S i) + 1) B) in R3; [exact R3|].
      replace (Z.of_nat (S i) + 1) with (1 + (Z.of_nat i + 1)) by lia. rewrite (ztimes_add G g0 gadd gneg on HG) by exact HB. rewrite (ztimes_1 G g0 gadd gneg on HG) by exact HB. reflexivity.
Qed.
Lemma sel_loop_ok W : forall P A babs i, den' P A -> Forall (fun w => exists g, den' w g) W -> 0 <= i -> i + Z.of_nat (length W) <= 8 -> 0 <= babs < 8 ->
  sel_loop2 r P W babs i = Some (if (i <=? babs) && (babs <? i + Z.of_nat (length W)) then nth (Z.to_nat (babs - i)) W P else P).
Proof.
  induction W as [|w W IH]; intros P A babs i HPd HW Hi HL Hb; cbn [sel_loop2].
  - cbn [length]. change (Z.of_nat 0) with 0. rewrite Z.add_0_r. destruct (Z.leb_spec i babs); destruct (Z.ltb_spec babs i); cbn [andb]; try reflexivity; lia.
  - apply Forall_cons_iff in HW. destruct HW as [[g Hg] HW]. cbn [length] in HL |- *. rewrite teq_ok by lia.
    rewrite (po_cmove HP P w A g) by (try assumption; destruct (babs =? i); auto). cbn [bind].
    destruct (Z.eqb_spec babs i) as [E|E].
    + change (1 =? 1) with true. cbv iota. rewrite (IH w g babs (i + 1) Hg HW ltac:(lia) ltac:(lia) Hb). rewrite E. replace (i + 1 <=? i) with false by (symmetry; apply Z.leb_gt; lia).
      cbn [andb]. replace (i <=? i) with true by (symmetry; apply Z.leb_le; lia). replace (i <? i + Z.of_nat (S (length W))) with true by (symmetry; apply Z.ltb_lt; lia). cbn [andb].
      rewrite Z.sub_diag. reflexivity.
    + change (0 =? 1) with false. cbv iota. rewrite (IH P A babs (i + 1) HPd HW ltac:(lia) ltac:(lia) Hb). f_equal.
      replace (i + 1 + Z.of_nat (length W)) with (i + Z.of_nat (S (length W))) by lia.
      destruct (Z.leb_spec (i + 1) babs); destruct (Z.leb_spec i babs); try lia; cbn [andb]; [|reflexivity].
      destruct (Z.ltb_spec babs (i + Z.of_nat (S (length W)))); [|reflexivity].
      replace (Z.to_nat (babs - i)) with (S (Z.to_nat (babs - (i + 1)))) by lia. reflexivity.
Qed.
(** table entry number i stands for the odd digit 2i+1 *)
Definition tab (W : list ecp2) (T : Z -> G) : Prop := length W = 8%nat /\ forall i w, nth_error W i = Some w -> den w (T (Z.of_nat i)).
Definition dig (T : Z -> G) (d : Z) : G := if d <? 0 then gneg (T ((- d - 1) / 2)) else T ((d - 1) / 2).
Lemma selector_ok W T Q A d : tab W T -> den' Q A -> odd15 d -> exists R, ecp2_selector r Q W d = Some R /\ den' R (dig T d).
Proof.
  intros [HL HW] HQ [Od Rd].
  assert (FW : Forall (fun w => exists g, den' w g) W). { apply Forall_forall. intros w Hw. apply In_nth_error in Hw. destruct Hw as [i Hi]. eexists. apply up. apply (HW i w Hi). }
  set (ba := (Z.abs d - 1) / 2).
  assert (EQ : Z.shiftr d 31 = (if d <? 0 then -1 else 0) /\ Z.quot (Z.lxor d (Z.shiftr d 31) - Z.shiftr d 31 - 1) 2 = ba /\ 0 <= ba < 8 /\ ba = (if d <? 0 then (- d - 1) / 2 else (d - 1) / 2)).
  { assert (C : d = -15 \/ d = -13 \/ d = -11 \/ d = -9 \/ d = -7 \/ d = -5 \/ d = -3 \/ d = -1 \/ d = 1 \/ d = 3 \/ d = 5 \/ d = 7 \/ d = 9 \/ d = 11 \/ d = 13 \/ d = 15).
    { apply Z.odd_spec in Od. destruct Od as [k Hk]. lia. }
    unfold ba. destruct C as [->|[->|[->|[->|[->|[->|[->|[->|[->|[->|[->|[->|[->|[->|[->| ->]]]]]]]]]]]]]]]; (split; [reflexivity|split; [reflexivity|split; [cbv; split; congruence|reflexivity]]]). }
  destruct EQ as [E1 [E2 [E3 E4]]]. unfold ecp2_selector. cbv zeta. rewrite E2. clear E2.
  rewrite (sel_loop_ok W Q A ba 0 HQ FW) by (rewrite ?HL; lia). rewrite HL. replace (0 <=? ba) with true by (symmetry; apply Z.leb_le; lia). replace (ba <? 0 + Z.of_nat 8) with true by (symmetry; apply Z.ltb_lt; lia). cbn [andb bind].
  rewrite Z.sub_0_r. destruct (nth_error W (Z.to_nat ba)) as [w|] eqn:En. 2:{ apply nth_error_None in En. lia. }
  rewrite (nth_error_nth _ _ _ En). pose proof (HW _ _ En) as Hw. rewrite Z2Nat.id in Hw by lia.
  destruct (po_neg HP w _ Hw) as [N [N1 N2]]. rewrite N1. cbn [bind]. rewrite E1. unfold dig.
  destruct (Z.ltb_spec d 0) as [L|L].
  - change (Z.land (-1) 1) with 1. rewrite (po_cmove HP w N _ _ 1 (up _ _ Hw) N2) by auto. exists N. split; [reflexivity|]. rewrite <- E4. exact N2.
  - change (Z.land 0 1) with 0. rewrite (po_cmove HP w N _ _ 0 (up _ _ Hw) N2) by auto. exists w. split; [reflexivity|]. rewrite <- E4. apply up. exact Hw.
Qed.
Lemma win_loop_ok k W T : tab W T -> forall ds P Q A B, Forall odd15 ds -> den P A -> den' Q B ->
  exists R, win_loop2 r tw bi k W ds P Q = Some R /\ den R (fold_left (fun a d => gadd (zt (2 ^ Z.of_nat k) a) (dig T d)) ds A).
Proof.
  intros HT. induction ds as [|d ds IH]; intros P Q A B HD H1 H2; cbn [win_loop2 fold_left].
  - exists P. auto.
  - apply Forall_cons_iff in HD. destruct HD as [Hd HD]. destruct (selector_ok W T Q B d HT H2 Hd) as [Q1 [S1 S2]]. rewrite S1. cbn [bind].
    destruct (dbln_ok k P A H1) as [P1 [D1 D2]]. rewrite D1. cbn [bind]. destruct (po_add HP P1 Q1 _ _ (up _ _ D2) S2) as [P2 [A1 A2]]. rewrite A1. cbn [bind].
    apply (IH P2 Q1 _ _ HD A2 S2).
Qed.

Theorem mul2_ok P A e : den P A -> big_wf c e -> V e + 2 < 2 ^ (NBITS r - 4) -> exists R, ecp2_mul r tw bi P e = Some R /\ den R (zt (V e) A) /\ nrml R (zt (V e) A).
Proof.
  intros H He Hm. pose proof (po_on HP _ _ (up _ _ H)) as OA. unfold ecp2_mul. cbv zeta.
  destruct (po_inf HP P A H) as [b [B1 B2]]. rewrite B1. cbn [bind]. destruct b.
  { rewrite (proj1 B2 eq_refl). assert (E : zt (V e) g0 = g0). { transitivity (zt (V e) (zt 0 g0)); [reflexivity|]. rewrite (ztimes_mul G g0 gadd gneg on HG) by apply (cg_0 _ _ _ _ _ HG). rewrite Z.mul_0_r. reflexivity. } rewrite E. apply (po_new HP). }
  pose proof (cf_B _ (cfg_ok_facts _ Hok)) as HB. pose proof (cf_N _ (cfg_ok_facts _ Hok)) as HN. pose proof (brange c Hok e He) as H0.
  assert (NBp : 16 <= NBITS r) by (unfold NBITS; nia).
  assert (Bm : bmax c = 2 ^ NBITS r) by (unfold bmax, NBITS; f_equal; ring).
  assert (B16 : 2 ^ NBITS r = 16 * 2 ^ (NBITS r - 4)). { replace (NBITS r) with (4 + (NBITS r - 4)) at 1 by ring. rewrite Z.pow_add_r by lia. reflexivity. }
  assert (P12 : 2 ^ 12 <= 2 ^ (NBITS r - 4)) by (apply pow2_le; lia). change (2 ^ 12) with 4096 in P12.
  destruct (po_dbl HP P A (up _ _ H)) as [Q [D1 D2]]. rewrite D1. cbn [bind].
  destruct (win_table_ok 7 P Q A _ H D2) as [W' [W1 [W2 W3]]]. rewrite W1. cbn [bind].
  destruct (make_odd_ok r Hok e He ltac:(lia)) as [t [ns [M1 [M2 [M3 M4]]]]]. rewrite M1. cbn [bind].
  assert (Ht : V t + 16 < bmax c) by lia. assert (T0 : 0 < V t) by lia.
  rewrite <- (ztimes_2 G g0 gadd gneg on HG) in D2, W3 by exact OA.
  assert (TAB : tab (P :: W') (fun i => zt (2 * i + 1) A)).
  { split; [cbn; congruence|]. intros [|i] w E; cbn [nth_error] in E.
    - injection E as <-. change (2 * Z.of_nat 0 + 1) with 1. rewrite (ztimes_1 G g0 gadd gneg on HG) by exact OA. exact H.
    - specialize (W3 i w E). rewrite (ztimes_mul G g0 gadd gneg on HG) in W3 by exact OA. replace (2 * Z.of_nat (S i) + 1) with (1 + (Z.of_nat i + 1) * 2) by lia.
      rewrite (ztimes_add G g0 gadd gneg on HG) by exact OA. rewrite (ztimes_1 G g0 gadd gneg on HG) by exact OA. exact W3. }
  assert (COR : exists C k, ecp2_cmove r Q P ns = Some C /\ den C (zt k A) /\ V t = V e + k).
  { destruct M4 as [[-> M4]|[-> M4]]; rewrite (po_cmove HP Q P _ _ _ (up _ _ D2) (up _ _ H)) by auto; eexists; eexists; (split; [reflexivity|]).
    - change (0 =? 1) with false. cbv iota. split; [exact D2|exact M4].
    - change (1 =? 1) with true. cbv iota. rewrite <- (ztimes_1 G g0 gadd gneg on HG) in H by exact OA. split; [exact H|exact M4]. }
  destruct COR as [C [kc [C1 [C2 C3]]]]. rewrite C1. cbn [bind]. rewrite (nbits_wf r Hok t M2 T0). cbn [bind].
  set (L := Z.log2 (V t)). assert (L0 : 0 <= L) by apply Z.log2_nonneg. assert (LV : V t < 2 ^ (L + 1)) by (unfold L; apply (Z.log2_spec (V t) T0)).
  assert (LU : L + 1 <= NBITS r - 4). { assert (L < NBITS r - 4); [|lia]. apply Z.log2_lt_pow2; lia. }
  set (nb := 1 + (L + 1 + 3) / 4).
  assert (NBct : (nb <? 1 + (Z.of_nat (NLEN c) * BASEBITS c + 3) / 4) = true).
  { apply Z.ltb_lt. unfold nb. fold (NBITS r). assert ((L + 1 + 3) / 4 < (NBITS r + 3) / 4); [|lia]. assert (E4 : (NBITS r + 3) / 4 = (NBITS r - 1) / 4 + 1). { replace (NBITS r + 3) with (NBITS r - 1 + 1 * 4) by ring. rewrite Z.div_add by lia. reflexivity. }
    assert ((L + 1 + 3) / 4 <= (NBITS r - 1) / 4) by (apply Z.div_le_mono; lia). lia. }
  rewrite NBct.
  assert (NB0 : 0 <= nb) by (unfold nb; assert (0 <= (L + 1 + 3) / 4) by (apply Z.div_pos; lia); lia).
  destruct (recode_ok r Hok (Z.to_nat nb) 4 t ltac:(lia) M2 M3 Ht) as [ds [t' [R1 [R2 [R3 [R4 [R5 [R6 [R7 R8]]]]]]]]]. rewrite R1. cbn [bind fst snd].
  assert (Et : V t' = 1). { apply R8. rewrite Z2Nat.id by exact NB0. apply Z.lt_le_trans with (1 := LV). apply pow2_le; unfold nb; pose proof (Z.div_mod (L + 1 + 3) 4 ltac:(lia)); pose proof (Z.mod_pos_bound (L + 1 + 3) 4 ltac:(lia)); lia. }
  rewrite (lastbits_wf c Hok t' 5 R3) by lia. cbn [bind fst]. rewrite Et. change (wrap8 (1 mod 2 ^ 5)) with 1. change (0 <? 1) with true. cbv iota. change (Z.to_nat ((1 - 1) / 2)) with 0%nat. cbn [nth_error bind].
  destruct (map_wrap8 ds R7) as [Em Eo]. rewrite Em.
  assert (Eor : Forall odd15 (rev ds)) by (apply Forall_rev; exact Eo).
  destruct (win_loop_ok 4 (P :: W') _ TAB (rev ds) P C A (zt kc A) Eor H (up _ _ C2)) as [P1 [L1 L2]]. rewrite L1. cbn [bind].
  change (Z.of_nat 4) with 4 in L2.
  assert (EH : fold_left (fun a d => gadd (zt (2 ^ 4) a) (dig (fun i => zt (2 * i + 1) A) d)) (rev ds) A = zt (V t) A).
  { pose proof (horner G g0 gadd gneg on HG A A 4 (dig (fun i => zt (2 * i + 1) A)) OA OA ltac:(lia) ds (repeat 0 (length ds)) 1 0 ds) as EH.
    rewrite repeat_length in EH. rewrite (lin_l G g0 gadd gneg on HG), (ztimes_1 G g0 gadd gneg on HG) in EH by exact OA. rewrite EH; [|reflexivity| |reflexivity].
    - rewrite dsum_zeros. rewrite (Z.mul_0_r _), Z.add_0_r. rewrite (lin_l G g0 gadd gneg on HG) by exact OA. f_equal. rewrite R6, R2, Et. reflexivity.
    - intros i Hi. rewrite nth_repeat, (lin_l G g0 gadd gneg on HG) by exact OA. rewrite Forall_forall in Eo. assert (Hd : odd15 (nth i ds 0)) by (apply Eo, nth_In; exact Hi). set (d := nth i ds 0) in *. clearbody d. clear - Hd OA HG. destruct Hd as [Ho _].
      apply Z.odd_spec in Ho. destruct Ho as [k ->]. unfold dig. destruct (Z.ltb_spec (2 * k + 1) 0) as [N|N].
      + rewrite <- (ztimes_opp G g0 gadd gneg on HG) by exact OA. f_equal. replace (- (2 * k + 1) - 1) with ((- k - 1) * 2) by ring. rewrite Z.div_mul by lia. ring.
      + f_equal. replace (2 * k + 1 - 1) with (k * 2) by ring. rewrite Z.div_mul by lia. ring. }
  rewrite EH in L2. destruct (po_sub P1 C _ _ (up _ _ L2) C2) as [T [S1 S2]]. rewrite S1. cbn [bind].
  rewrite <- (ztimes_opp G g0 gadd gneg on HG), <- (ztimes_add G g0 gadd gneg on HG) in S2 by exact OA. replace (V e) with (V t + - kc) by lia. destruct (po_affine HP T _ S2) as [R [A1 [A2 A3]]]. exists R. auto.
Qed.

End EMul2.
