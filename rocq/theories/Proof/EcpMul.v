(** Scalar multiplication of ecp.rs over any curve whose point operations implement a commutative group. *)
From Verif Require Import Base.Word Model.Big Model.Roms Model.Fp Model.Ecp Spec.BigSpec
  Proof.BigVal Proof.BigMod Proof.BigShift Proof.BigMonty Proof.BigMul Proof.BigMisc Proof.BigBytes Proof.FpBase Proof.BigJacobi Proof.BigInv.
From Coq Require Import Znumtheory.

(** ** recoding *)
Section Recode.
Variable r : rom.
Notation c := (r_cfg r).
Hypothesis Hok : cfg_ok c.
Notation B := (BASEBITS c).
Notation V := (val B).
Notation NB := (B * Z.of_nat (NLEN c)).
Let HB : 8 <= B. Proof. pose proof (cf_B _ (cfg_ok_facts _ Hok)). lia. Qed.
Let HC : B + 3 <= CHUNK c. Proof. pose proof (cf_C _ (cfg_ok_facts _ Hok)). lia. Qed.
Lemma wf_ne w : big_wf c w -> w <> [].
Proof. intros [L _] E. rewrite E in L. pose proof (cf_N _ (cfg_ok_facts _ Hok)). cbn in L. lia. Qed.
Lemma bmaxE : bmax c = 2 ^ NB. Proof. unfold bmax. f_equal. Qed.
Lemma dec_small w x v : big_wf c w -> V w = v -> -256 < x < 256 -> 0 <= v - x < bmax c -> exists r0, (t <- dec c w x ;; norm c t) = Some r0 /\ big_wf c r0 /\ V r0 = v - x.
Proof.
  intros Hw Hv Hx Hr. unfold dec. rewrite (norm_wf c Hok w Hw). cbn [bind]. pose proof (wf_ne w Hw) as NE. destruct w as [|y t]; [congruence|].
  assert (P8 : 2 ^ 8 <= 2 ^ B) by (apply pow2_le; lia). change (2 ^ 8) with 256 in P8.
  assert (PC : 2 ^ (B + 2) <= 2 ^ (CHUNK c - 1)) by (apply pow2_le; lia). rewrite Z.pow_add_r in PC by lia. change (2 ^ 2) with 4 in PC.
  rewrite wrap_id by lia. destruct Hw as [L Cn]. pose proof Cn as Cn'. apply Forall_cons_iff in Cn. destruct Cn as [Hy Ht].
  rewrite chk_ok by lia. cbn [bind].
  assert (Ev : V ((y - x) :: t) = v - x). { cbn [val] in *. lia. }
  destruct (norm_to_wf c Hok 2 ((y - x) :: t)) as [r0 [R1 [R2 R3]]].
  - lia.
  - lia.
  - exact L.
  - constructor; [lia|]. apply canon_within in Ht. eapply Forall_impl; [|exact Ht]. intros z Hz. cbv beta in Hz |- *. change (2 - 1) with 1. lia.
  - rewrite Ev. exact Hr.
  - exists r0. split; [exact R1|]. split; [exact R3|]. rewrite R2. exact Ev.
Qed.
Lemma inc1_wf w : big_wf c w -> V w + 1 < bmax c -> exists r0, (t <- inc c w 1 ;; norm c t) = Some r0 /\ big_wf c r0 /\ V r0 = V w + 1.
Proof.
  intros Hw Hr. assert (P8 : 2 ^ 8 <= 2 ^ B) by (apply pow2_le; lia). change (2 ^ 8) with 256 in P8.
  assert (PC : 2 ^ (B + 2) <= 2 ^ (CHUNK c - 1)) by (apply pow2_le; lia). rewrite Z.pow_add_r in PC by lia. change (2 ^ 2) with 4 in PC.
  destruct (inc_spec c Hok w 1 Hw ltac:(lia)) as [t [T1 [T2 [T3 T4]]]]. rewrite T1. cbn [bind].
  destruct (norm_to_wf c Hok 2 t) as [r0 [R1 [R2 R3]]]; [lia|lia|exact T2| | |].
  - eapply Forall_impl; [|exact T4]. intros z Hz. cbv beta in Hz |- *. change (2 - 1) with 1. lia.
  - rewrite T3. pose proof (brange c Hok w Hw). lia.
  - exists r0. split; [exact R1|]. split; [exact R3|lia].
Qed.
Fixpoint dsum (k : Z) (ds : list Z) : Z := match ds with [] => 0 | d :: ds' => d + 2 ^ k * dsum k ds' end.
Definition wdigit (k d : Z) : Prop := Z.odd d = true /\ - 2 ^ k < d < 2 ^ k.
Lemma recode_ok n : forall k t, 2 <= k <= 4 -> big_wf c t -> Z.odd (V t) = true -> V t + 16 < bmax c ->
  exists ds t', recode r n k t = Some (ds, t') /\ length ds = n /\ big_wf c t' /\ Z.odd (V t') = true /\ V t' <= V t /\
    V t = dsum k ds + 2 ^ (k * Z.of_nat n) * V t' /\ Forall (wdigit k) ds /\ (V t < 2 ^ (k * Z.of_nat n + 1) -> V t' = 1).
Proof.
  induction n as [|n IH]; intros k t Hk Ht Ho Hm; cbn [recode].
  - exists [], t. split; [reflexivity|]. split; [reflexivity|]. split; [exact Ht|]. split; [exact Ho|]. split; [lia|].
    change (Z.of_nat 0) with 0. rewrite Z.mul_0_r. cbn [dsum]. split; [change (2 ^ 0) with 1; lia|]. split; [constructor|].
    change (2 ^ (0 + 1)) with 2. pose proof (brange c Hok t Ht) as V0. intros H. assert (C : V t = 0 \/ V t = 1) by lia. destruct C as [C|C]; [rewrite C in Ho; discriminate|exact C].
  - rewrite (lastbits_wf c Hok t (k + 1) Ht) by lia. cbn [bind fst snd].
    set (q := V t / 2 ^ (k + 1)). set (lb := V t mod 2 ^ (k + 1)). pose proof (brange c Hok t Ht) as V0.
    assert (K1 : 2 ^ (k + 1) = 2 * 2 ^ k) by (rewrite Z.pow_add_r by lia; change (2 ^ 1) with 2; ring).
    assert (Kp : 4 <= 2 ^ k <= 16). { split; [change 4 with (2 ^ 2)|change 16 with (2 ^ 4)]; apply pow2_le; lia. }
    assert (Elb : V t = 2 ^ (k + 1) * q + lb) by (apply Z.div_mod; lia).
    assert (Rlb : 0 <= lb < 2 ^ (k + 1)) by (apply Z.mod_pos_bound; lia).
    assert (Q0 : 0 <= q) by (apply Z.div_pos; lia).
    assert (Olb : Z.odd lb = true). { rewrite Elb, K1 in Ho. rewrite <- Ho. replace (2 * 2 ^ k * q + lb) with (lb + 2 * (2 ^ k * q)) by ring. rewrite Z.odd_add_mul_2. reflexivity. }
    assert (E16 : V t - (lb - 2 ^ k) = 2 ^ k * (2 * q + 1)) by (rewrite Elb, K1; ring).
    destruct (dec_small t (lb - 2 ^ k) (V t) Ht eq_refl) as [t1 [D1 [D2 D3]]]; [lia| |].
    { split; [rewrite E16; apply Z.mul_nonneg_nonneg; lia|]. lia. }
    assert (D1' : forall (A : Type) (f : list Z -> option A), (t0 <- dec c t (lb - 2 ^ k) ;; t0 <- norm c t0 ;; f t0) = f t1).
    { intros A f. destruct (dec c t (lb - 2 ^ k)) as [t0|]; [|discriminate D1]. cbn [bind] in *. rewrite D1. reflexivity. }
    rewrite D1'. clear D1'.
    destruct (fshr_canon c HB HC t1 k ltac:(lia) (proj2 D2) (wf_ne _ D2)) as [t2 [F1 [F2 [F3 F4]]]]. rewrite F1. cbn [bind snd].
    assert (W2 : big_wf c t2) by (split; [rewrite F4; exact (proj1 D2)|exact F3]).
    assert (E2 : V t2 = 2 * q + 1). { rewrite F2, D3, E16, Z.mul_comm, Z.div_mul by lia. reflexivity. }
    assert (Ot2 : Z.odd (V t2) = true). { rewrite E2. rewrite Z.add_comm, Z.odd_add_mul_2. reflexivity. }
    assert (Le : V t2 <= V t). { rewrite E2, Elb, K1. destruct (Z.eq_dec q 0) as [->|]; [|nia]. assert (lb <> 0) by (intros E; rewrite E in Olb; discriminate). lia. }
    destruct (IH k t2 Hk W2 Ot2 ltac:(lia)) as [ds [t' [R1 [R2 [R3 [R4 [R5 [R6 [R7 R8]]]]]]]]]. rewrite R1. cbn [bind fst snd].
    exists (lb - 2 ^ k :: ds), t'. split; [reflexivity|]. split; [cbn; congruence|]. split; [exact R3|]. split; [exact R4|]. split; [lia|].
    assert (En : 2 ^ (k * Z.of_nat (S n)) = 2 ^ k * 2 ^ (k * Z.of_nat n)) by (rewrite Nat2Z.inj_succ, Z.mul_succ_r, Z.pow_add_r by lia; ring).
    split; [|split].
    + cbn [dsum]. rewrite En. rewrite <- Z.mul_assoc. assert (E : V t = lb - 2 ^ k + 2 ^ k * V t2) by (rewrite E2; lia). rewrite E at 1. rewrite R6 at 1. ring.
    + constructor; [|exact R7]. assert (lb <> 0) by (intros E; rewrite E in Olb; discriminate). split; [|lia]. rewrite Z.odd_sub, Olb. replace (Z.odd (2 ^ k)) with false; [reflexivity|]. symmetry. rewrite Z.odd_pow by lia. reflexivity.
    + intros H. apply R8. rewrite E2. assert (Hq : q < 2 ^ (k * Z.of_nat n)).
      { apply Z.div_lt_upper_bound; [lia|]. rewrite <- Z.pow_add_r by lia. replace (k + 1 + k * Z.of_nat n) with (k * Z.of_nat (S n) + 1) by lia. exact H. }
      rewrite Z.pow_add_r by lia. change (2 ^ 1) with 2. lia.
Qed.
Lemma make_odd_ok e : big_wf c e -> V e + 2 < bmax c ->
  exists t ns, make_odd r e = Some (t, ns) /\ big_wf c t /\ Z.odd (V t) = true /\ (ns = 0 /\ V t = V e + 2 \/ ns = 1 /\ V t = V e + 1).
Proof.
  intros He Hm. unfold make_odd. destruct (inc1_wf e He ltac:(lia)) as [t1 [A1 [A2 A3]]].
  destruct (inc1_wf t1 A2 ltac:(lia)) as [t2 [B1 [B2 B3]]].
  assert (A1' : forall (A : Type) (f : list Z -> option A), (t0 <- inc c e 1 ;; t0 <- norm c t0 ;; f t0) = f t1).
  { intros A f. destruct (inc c e 1) as [t0|]; [|discriminate A1]. cbn [bind] in *. rewrite A1. reflexivity. }
  assert (B1' : forall (A : Type) (f : list Z -> option A), (t0 <- inc c t1 1 ;; t0 <- norm c t0 ;; f t0) = f t2).
  { intros A f. destruct (inc c t1 1) as [t0|]; [|discriminate B1]. cbn [bind] in *. rewrite B1. reflexivity. }
  rewrite A1'. cbv zeta. rewrite B1'. rewrite !(parity_wf c Hok) by assumption.
  assert (L : length t1 = length t2) by (rewrite (proj1 A2), (proj1 B2); reflexivity).
  rewrite A3. destruct (Z.odd (V e)) eqn:Oe.
  - assert (M : V e mod 2 = 1) by (rewrite Zmod_odd, Oe; reflexivity). assert (M1 : (V e + 1) mod 2 = 0) by (rewrite Zmod_odd, Z.odd_add, Oe; reflexivity).
    rewrite M, M1, (cmove_spec c Hok) by auto. cbn [bind]. exists t2, 0. split; [reflexivity|]. split; [exact B2|]. split; [rewrite B3, A3, !Z.odd_add, Oe; reflexivity|]. left. split; [reflexivity|lia].
  - assert (M : V e mod 2 = 0) by (rewrite Zmod_odd, Oe; reflexivity). assert (M1 : (V e + 1) mod 2 = 1) by (rewrite Zmod_odd, Z.odd_add, Oe; reflexivity).
    rewrite M, M1, (cmove_spec c Hok) by auto. cbn [bind]. exists t1, 1. split; [reflexivity|]. split; [exact A2|]. split; [rewrite A3, !Z.odd_add, Oe; reflexivity|]. right. split; [reflexivity|exact A3].
Qed.
Lemma nbits_wf t : big_wf c t -> 0 < V t -> nbits c t = Some (Z.log2 (V t) + 1).
Proof. intros Ht H. rewrite (nbits_spec c Hok t t (norm_wf c Hok t Ht) (proj2 Ht)). destruct (Z.eqb_spec (V t) 0); [lia|reflexivity]. Qed.
End Recode.

(** ** a commutative group on the elements satisfying [on], and its multiples *)
Section Grp.
Variable G : Type.
Variables (g0 : G) (gadd : G -> G -> G) (gneg : G -> G) (on : G -> Prop).
Record cgroup : Prop := mkcg {
  cg_0 : on g0; cg_add : forall a b, on a -> on b -> on (gadd a b); cg_neg : forall a, on a -> on (gneg a);
  cg_comm : forall a b, on a -> on b -> gadd a b = gadd b a;
  cg_assoc : forall a b c, on a -> on b -> on c -> gadd (gadd a b) c = gadd a (gadd b c);
  cg_id : forall a, on a -> gadd g0 a = a;
  cg_inv : forall a, on a -> gadd a (gneg a) = g0 }.
Hypothesis HG : cgroup.
Fixpoint ntimes (n : nat) (A : G) : G := match n with O => g0 | S n' => gadd (ntimes n' A) A end.
Definition ztimes (z : Z) (A : G) : G := if z <? 0 then gneg (ntimes (Z.to_nat (- z)) A) else ntimes (Z.to_nat z) A.
Let O0 := cg_0 HG. Let OA := cg_add HG. Let ON := cg_neg HG. Let CM := cg_comm HG. Let AS := cg_assoc HG. Let ID := cg_id HG. Let INV := cg_inv HG.
Hint Resolve O0 OA ON : cgd.
Lemma id_r a : on a -> gadd a g0 = a. Proof. intros H. rewrite CM by auto with cgd. apply ID. exact H. Qed.
Lemma inv_l a : on a -> gadd (gneg a) a = g0. Proof. intros H. rewrite CM by auto with cgd. apply INV. exact H. Qed.
Lemma cancel_r a b c : on a -> on b -> on c -> gadd a c = gadd b c -> a = b.
Proof.
  intros Ha Hb Hc E. rewrite <- (id_r a Ha), <- (id_r b Hb), <- (INV c Hc), <- !AS by auto with cgd. rewrite E. reflexivity.
Qed.
Lemma add_sub a b : on a -> on b -> gadd (gadd a b) (gneg b) = a.
Proof. intros Ha Hb. rewrite AS, INV by auto with cgd. apply id_r. exact Ha. Qed.
Lemma sub_add a b : on a -> on b -> gadd (gadd a (gneg b)) b = a.
Proof. intros Ha Hb. rewrite AS, inv_l by auto with cgd. apply id_r. exact Ha. Qed.
Lemma neg_uniq a b : on a -> on b -> gadd a b = g0 -> b = gneg a.
Proof. intros Ha Hb E. apply (cancel_r b (gneg a) a); auto with cgd. rewrite (CM b a), E, inv_l by auto with cgd. reflexivity. Qed.
Lemma neg_0 : gneg g0 = g0. Proof. symmetry. apply neg_uniq; auto with cgd. Qed.
Lemma neg_neg a : on a -> gneg (gneg a) = a. Proof. intros H. symmetry. apply neg_uniq; auto with cgd. apply inv_l. exact H. Qed.
Lemma swap4 a b c d : on a -> on b -> on c -> on d -> gadd (gadd a b) (gadd c d) = gadd (gadd a c) (gadd b d).
Proof. intros. rewrite !AS by auto with cgd. f_equal. rewrite <- !AS by auto with cgd. f_equal. apply CM; assumption. Qed.
Lemma neg_add a b : on a -> on b -> gneg (gadd a b) = gadd (gneg a) (gneg b).
Proof. intros Ha Hb. symmetry. apply neg_uniq; auto with cgd. rewrite swap4, !INV, ID by auto with cgd. reflexivity. Qed.
Lemma ntimes_on n A : on A -> on (ntimes n A). Proof. intros H. induction n; cbn [ntimes]; auto with cgd. Qed.
Lemma ztimes_on z A : on A -> on (ztimes z A). Proof. intros H. unfold ztimes. destruct (z <? 0); auto using ntimes_on with cgd. Qed.
Hint Resolve ntimes_on ztimes_on : cgd.
Lemma ztimes_0 A : ztimes 0 A = g0. Proof. reflexivity. Qed.
Lemma ztimes_succ z A : on A -> ztimes (Z.succ z) A = gadd (ztimes z A) A.
Proof.
  intros H. unfold ztimes. destruct (Z.ltb_spec z 0) as [L|L].
  - destruct (Z.ltb_spec (Z.succ z) 0) as [L2|L2].
    + replace (Z.to_nat (- z)) with (S (Z.to_nat (- Z.succ z))) by lia. cbn [ntimes]. rewrite neg_add by auto with cgd. rewrite sub_add by auto with cgd. reflexivity.
    + replace z with (-1) in * by lia. change (Z.to_nat (- -1)) with 1%nat. change (Z.to_nat (Z.succ (-1))) with 0%nat. cbn [ntimes]. rewrite ID by exact H. rewrite inv_l by exact H. reflexivity.
  - destruct (Z.ltb_spec (Z.succ z) 0) as [L2|L2]; [lia|]. rewrite Z2Nat.inj_succ by lia. reflexivity.
Qed.
Lemma ztimes_pred z A : on A -> ztimes (Z.pred z) A = gadd (ztimes z A) (gneg A).
Proof.
  intros H. pose proof (ztimes_succ (Z.pred z) A H) as E. rewrite Z.succ_pred in E. rewrite E. rewrite add_sub by auto with cgd. reflexivity.
Qed.
Lemma ztimes_add m n A : on A -> ztimes (m + n) A = gadd (ztimes m A) (ztimes n A).
Proof.
  intros H. revert n. apply Z.peano_ind.
  - rewrite Z.add_0_r, ztimes_0, id_r by auto with cgd. reflexivity.
  - intros n IH. rewrite Z.add_succ_r, !ztimes_succ, IH, AS by auto with cgd. reflexivity.
  - intros n IH. rewrite Z.add_pred_r, !ztimes_pred, IH, AS by auto with cgd. reflexivity.
Qed.
Lemma ztimes_1 A : on A -> ztimes 1 A = A. Proof. intros H. change (gadd g0 A = A). apply ID. exact H. Qed.
Lemma ztimes_2 A : on A -> ztimes 2 A = gadd A A. Proof. intros H. change 2 with (1 + 1). rewrite ztimes_add, !ztimes_1 by exact H. reflexivity. Qed.
Lemma ztimes_opp n A : on A -> ztimes (- n) A = gneg (ztimes n A).
Proof. intros H. apply neg_uniq; auto with cgd. rewrite <- ztimes_add by exact H. rewrite Z.add_opp_diag_r. reflexivity. Qed.
Lemma ztimes_sum n A B : on A -> on B -> ztimes n (gadd A B) = gadd (ztimes n A) (ztimes n B).
Proof.
  intros HA HB. revert n. apply Z.peano_ind.
  - rewrite !ztimes_0, ID by auto with cgd. reflexivity.
  - intros n IH. rewrite !ztimes_succ, IH, swap4 by auto with cgd. reflexivity.
  - intros n IH. rewrite !ztimes_pred, IH, neg_add, swap4 by auto with cgd. reflexivity.
Qed.
Lemma ztimes_mul m n A : on A -> ztimes m (ztimes n A) = ztimes (m * n) A.
Proof.
  intros H. revert m. apply Z.peano_ind.
  - reflexivity.
  - intros m IH. rewrite ztimes_succ, IH by auto with cgd. rewrite Z.mul_succ_l, ztimes_add by exact H. reflexivity.
  - intros m IH. rewrite ztimes_pred, IH by auto with cgd. rewrite Z.mul_pred_l. unfold Z.sub. rewrite ztimes_add, ztimes_opp by exact H. reflexivity.
Qed.
(** integer combinations of two elements *)
Definition lin (A B : G) (x y : Z) : G := gadd (ztimes x A) (ztimes y B).
Lemma lin_on A B x y : on A -> on B -> on (lin A B x y). Proof. unfold lin. auto with cgd. Qed.
Lemma lin_add A B x y x' y' : on A -> on B -> gadd (lin A B x y) (lin A B x' y') = lin A B (x + x') (y + y').
Proof. intros HA HB. unfold lin. rewrite swap4 by auto with cgd. rewrite !ztimes_add by assumption. reflexivity. Qed.
Lemma lin_mul A B k x y : on A -> on B -> ztimes k (lin A B x y) = lin A B (k * x) (k * y).
Proof. intros HA HB. unfold lin. rewrite ztimes_sum by auto with cgd. rewrite !ztimes_mul by assumption. reflexivity. Qed.
Lemma lin_neg A B x y : on A -> on B -> gneg (lin A B x y) = lin A B (- x) (- y).
Proof. intros HA HB. unfold lin. rewrite neg_add by auto with cgd. rewrite !ztimes_opp by assumption. reflexivity. Qed.
Lemma lin_l A B x : on A -> on B -> lin A B x 0 = ztimes x A.
Proof. intros HA HB. unfold lin. rewrite ztimes_0. apply id_r. auto with cgd. Qed.
Lemma lin_r A B x : on A -> on B -> lin A B 0 x = ztimes x B.
Proof. intros HA HB. unfold lin. rewrite ztimes_0. apply ID. auto with cgd. Qed.
End Grp.

(** ** point objects implementing the group *)
Section EMul.
Variable r : rom.
Notation c := (r_cfg r).
Notation V := (val (BASEBITS c)).
Hypothesis Hok : cfg_ok c.
Hypothesis Hnm : is_mont r = false.
Variable G : Type.
Variables (g0 : G) (gadd : G -> G -> G) (gneg : G -> G) (on : G -> Prop).
Hypothesis HG : cgroup G g0 gadd gneg on.
Variable den : ecp -> G -> Prop.
Variable nrml : ecp -> G -> Prop.
Record pops : Prop := mkpops {
  po_on : forall P A, den P A -> on A;
  po_add : forall P Q A C, den P A -> den Q C -> exists R, ecp_add r P Q = Some R /\ den R (gadd A C);
  po_dbl : forall P A, den P A -> exists R, ecp_dbl r P = Some R /\ den R (gadd A A);
  po_neg : forall P A, den P A -> exists R, ecp_neg r P = Some R /\ den R (gneg A);
  po_cmove : forall P Q A C d, den P A -> den Q C -> d = 0 \/ d = 1 -> ecp_cmove r P Q d = Some (if d =? 1 then Q else P);
  po_cswap : forall P Q A C d, den P A -> den Q C -> d = 0 \/ d = 1 -> ecp_cswap r P Q d = Some (if d =? 1 then (Q, P) else (P, Q));
  po_inf : forall P A, den P A -> exists b, ecp_is_infinity r P = Some b /\ (b = true <-> A = g0);
  po_new : exists R, ecp_new r = Some R /\ den R g0 /\ nrml R g0;
  po_affine : forall P A, den P A -> exists R, ecp_affine r P = Some R /\ den R A /\ nrml R A }.
Hypothesis HP : pops.
Notation zt := (ztimes G g0 gadd gneg).
Notation Lin := (lin G g0 gadd gneg).
Lemma po_sub P Q A C : den P A -> den Q C -> exists R, ecp_sub r P Q = Some R /\ den R (gadd A (gneg C)).
Proof. intros H1 H2. unfold ecp_sub. destruct (po_neg HP Q C H2) as [N [E1 E2]]. rewrite E1. cbn [bind]. apply (po_add HP); assumption. Qed.
Lemma dbln_ok n : forall P A, den P A -> exists R, dbln r n P = Some R /\ den R (zt (2 ^ Z.of_nat n) A).
Proof.
  induction n as [|n IH]; intros P A H; cbn [dbln].
  - exists P. split; [reflexivity|]. change (2 ^ Z.of_nat 0) with 1. rewrite (ztimes_1 G g0 gadd gneg on HG) by exact (po_on HP _ _ H). exact H.
  - destruct (po_dbl HP P A H) as [P1 [E1 E2]]. rewrite E1. cbn [bind]. destruct (IH P1 _ E2) as [R [R1 R2]]. exists R. split; [exact R1|].
    pose proof (po_on HP _ _ H) as HA. rewrite <- (ztimes_2 G g0 gadd gneg on HG) in R2 by exact HA. rewrite (ztimes_mul G g0 gadd gneg on HG) in R2 by exact HA.
    rewrite Nat2Z.inj_succ, Z.pow_succ_r, Z.mul_comm by lia. exact R2.
Qed.
Lemma win_table_ok n : forall P Q A B, den P A -> den Q B -> exists W, win_table r n P Q = Some W /\ length W = n /\
  forall i w, nth_error W i = Some w -> den w (gadd A (zt (Z.of_nat i + 1) B)).
Proof.
  induction n as [|n IH]; intros P Q A B H1 H2; cbn [win_table].
  - exists []. split; [reflexivity|]. split; [reflexivity|]. intros [|i] w E; discriminate E.
  - destruct (po_add HP P Q A B H1 H2) as [W1 [E1 E2]]. rewrite E1. cbn [bind]. destruct (IH W1 Q _ B E2 H2) as [W [R1 [R2 R3]]]. rewrite R1. cbn [bind].
    pose proof (po_on HP _ _ H1) as HA. pose proof (po_on HP _ _ H2) as HB.
    exists (W1 :: W). split; [reflexivity|]. split; [cbn; congruence|]. intros [|i] w E; cbn [nth_error] in E.
    + injection E as <-. change (Z.of_nat 0 + 1) with 1. rewrite (ztimes_1 G g0 gadd gneg on HG) by exact HB. exact E2.
    + specialize (R3 i w E). rewrite (cg_assoc _ _ _ _ _ HG) in R3; [|exact HA|exact HB|apply (ztimes_on G g0 gadd gneg on HG); exact HB].
      replace (gadd B (zt (Z.of_nat i + 1) B)) with (zt (Z.of_nat (S i) + 1) B) in R3; [exact R3|].
      replace (Z.of_nat (S i) + 1) with (1 + (Z.of_nat i + 1)) by lia. rewrite (ztimes_add G g0 gadd gneg on HG) by exact HB. rewrite (ztimes_1 G g0 gadd gneg on HG) by exact HB. reflexivity.
Qed.
Lemma teq_ok x y : 0 <= x < 8 -> 0 <= y < 8 -> teq x y = if x =? y then 1 else 0.
Proof.
  intros Hx Hy. assert (Cx : x = 0 \/ x = 1 \/ x = 2 \/ x = 3 \/ x = 4 \/ x = 5 \/ x = 6 \/ x = 7) by lia.
  assert (Cy : y = 0 \/ y = 1 \/ y = 2 \/ y = 3 \/ y = 4 \/ y = 5 \/ y = 6 \/ y = 7) by lia.
  destruct Cx as [->|[->|[->|[->|[->|[->|[->| ->]]]]]]]; destruct Cy as [->|[->|[->|[->|[->|[->|[->| ->]]]]]]]; reflexivity.
Qed.
Lemma sel_loop_ok W : forall P A babs i, den P A -> Forall (fun w => exists g, den w g) W -> 0 <= i -> i + Z.of_nat (length W) <= 8 -> 0 <= babs < 8 ->
  sel_loop r P W babs i = Some (if (i <=? babs) && (babs <? i + Z.of_nat (length W)) then nth (Z.to_nat (babs - i)) W P else P).
Proof.
  induction W as [|w W IH]; intros P A babs i HPd HW Hi HL Hb; cbn [sel_loop].
  - cbn [length]. change (Z.of_nat 0) with 0. rewrite Z.add_0_r. destruct (Z.leb_spec i babs); destruct (Z.ltb_spec babs i); cbn [andb]; try reflexivity; lia.
  - apply Forall_cons_iff in HW. destruct HW as [[g Hg] HW]. cbn [length] in HL |- *. rewrite teq_ok by lia.
    rewrite (po_cmove HP P w A g) by (try assumption; destruct (babs =? i); auto). cbn [bind].
    destruct (Z.eqb_spec babs i) as [E|E].
    + change (1 =? 1) with true. cbv iota. rewrite (IH w g babs (i + 1) Hg HW ltac:(lia) ltac:(lia) Hb). rewrite E. replace (i + 1 <=? i) with false by (symmetry; apply Z.leb_gt; lia).
      cbn [andb]. replace (i <=? i) with true by (symmetry; apply Z.leb_le; lia). replace (i <? i + Z.of_nat (S (length W))) with true by (symmetry; apply Z.ltb_lt; lia). cbn [andb].
      rewrite Z.sub_diag. reflexivity.
    + change (0 =? 1) with false. cbv iota. rewrite (IH P A babs (i + 1) HPd HW ltac:(lia) ltac:(lia) Hb). f_equal.
      replace (i + 1 + Z.of_nat (length W)) with (i + Z.of_nat (S (length W))) by lia.
      destruct (Z.leb_spec (i + 1) babs); destruct (Z.leb_spec i babs); try lia; cbn [andb]; [|reflexivity].
      destruct (Z.ltb_spec babs (i + Z.of_nat (S (length W)))); [|reflexivity].
      replace (Z.to_nat (babs - i)) with (S (Z.to_nat (babs - (i + 1)))) by lia. reflexivity.
Qed.
Definition odd15 (d : Z) : Prop := Z.odd d = true /\ -16 < d < 16.
(** table entry number i stands for the odd digit 2i+1 *)
Definition tab (W : list ecp) (T : Z -> G) : Prop := length W = 8%nat /\ forall i w, nth_error W i = Some w -> den w (T (Z.of_nat i)).
Definition dig (T : Z -> G) (d : Z) : G := if d <? 0 then gneg (T ((- d - 1) / 2)) else T ((d - 1) / 2).
Lemma selector_ok W T Q A d : tab W T -> den Q A -> odd15 d -> exists R, ecp_selector r Q W d = Some R /\ den R (dig T d).
Proof.
  intros [HL HW] HQ [Od Rd].
  assert (FW : Forall (fun w => exists g, den w g) W). { apply Forall_forall. intros w Hw. apply In_nth_error in Hw. destruct Hw as [i Hi]. eexists. apply (HW i w Hi). }
  set (ba := (Z.abs d - 1) / 2).
  assert (EQ : Z.shiftr d 31 = (if d <? 0 then -1 else 0) /\ Z.quot (Z.lxor d (Z.shiftr d 31) - Z.shiftr d 31 - 1) 2 = ba /\ 0 <= ba < 8 /\ ba = (if d <? 0 then (- d - 1) / 2 else (d - 1) / 2)).
  { assert (C : d = -15 \/ d = -13 \/ d = -11 \/ d = -9 \/ d = -7 \/ d = -5 \/ d = -3 \/ d = -1 \/ d = 1 \/ d = 3 \/ d = 5 \/ d = 7 \/ d = 9 \/ d = 11 \/ d = 13 \/ d = 15).
    { apply Z.odd_spec in Od. destruct Od as [k Hk]. lia. }
    unfold ba. destruct C as [->|[->|[->|[->|[->|[->|[->|[->|[->|[->|[->|[->|[->|[->|[->| ->]]]]]]]]]]]]]]]; (split; [reflexivity|split; [reflexivity|split; [cbv; split; congruence|reflexivity]]]). }
  destruct EQ as [E1 [E2 [E3 E4]]]. unfold ecp_selector. cbv zeta. rewrite E2. clear E2.
  rewrite (sel_loop_ok W Q A ba 0 HQ FW) by (rewrite ?HL; lia). rewrite HL. replace (0 <=? ba) with true by (symmetry; apply Z.leb_le; lia). replace (ba <? 0 + Z.of_nat 8) with true by (symmetry; apply Z.ltb_lt; lia). cbn [andb bind].
  rewrite Z.sub_0_r. destruct (nth_error W (Z.to_nat ba)) as [w|] eqn:En. 2:{ apply nth_error_None in En. lia. }
  rewrite (nth_error_nth _ _ _ En). pose proof (HW _ _ En) as Hw. rewrite Z2Nat.id in Hw by lia.
  destruct (po_neg HP w _ Hw) as [N [N1 N2]]. rewrite N1. cbn [bind]. rewrite E1. unfold dig.
  destruct (Z.ltb_spec d 0) as [L|L].
  - change (Z.land (-1) 1) with 1. rewrite (po_cmove HP w N _ _ 1 Hw N2) by auto. exists N. split; [reflexivity|]. rewrite <- E4. exact N2.
  - change (Z.land 0 1) with 0. rewrite (po_cmove HP w N _ _ 0 Hw N2) by auto. exists w. split; [reflexivity|]. rewrite <- E4. exact Hw.
Qed.
Lemma win_loop_ok k W T : tab W T -> forall ds P Q A B, Forall odd15 ds -> den P A -> den Q B ->
  exists R, win_loop r k W ds P Q = Some R /\ den R (fold_left (fun a d => gadd (zt (2 ^ Z.of_nat k) a) (dig T d)) ds A).
Proof.
  intros HT. induction ds as [|d ds IH]; intros P Q A B HD H1 H2; cbn [win_loop fold_left].
  - exists P. auto.
  - apply Forall_cons_iff in HD. destruct HD as [Hd HD]. destruct (selector_ok W T Q B d HT H2 Hd) as [Q1 [S1 S2]]. rewrite S1. cbn [bind].
    destruct (dbln_ok k P A H1) as [P1 [D1 D2]]. rewrite D1. cbn [bind]. destruct (po_add HP P1 Q1 _ _ D2 S2) as [P2 [A1 A2]]. rewrite A1. cbn [bind].
    apply (IH P2 Q1 _ _ HD A2 S2).
Qed.
(** Horner's rule for pairs of digit strings *)
Lemma horner A B k (f : Z -> G) : on A -> on B -> 0 <= k -> forall (ds es : list Z) x y (D : list Z), length ds = length es ->
  (forall i, (i < length ds)%nat -> f (nth i D 0) = Lin A B (nth i ds 0) (nth i es 0)) -> length D = length ds ->
  fold_left (fun a d => gadd (zt (2 ^ k) a) (f d)) (rev D) (Lin A B x y) = Lin A B (dsum k ds + 2 ^ (k * Z.of_nat (length ds)) * x) (dsum k es + 2 ^ (k * Z.of_nat (length ds)) * y).
Proof.
  intros HA HB Hk. induction ds as [|d ds IH]; intros es x y D HL Hf HD.
  - destruct es; [|discriminate HL]. destruct D; [|discriminate HD]. cbn [rev fold_left dsum length]. change (Z.of_nat 0) with 0. rewrite Z.mul_0_r. change (2 ^ 0) with 1. f_equal; ring.
  - destruct es as [|e es]; [discriminate HL|]. destruct D as [|u D]; [discriminate HD|]. cbn [rev]. rewrite fold_left_app. cbn [fold_left].
    rewrite (IH es x y D); [|injection HL; auto| |injection HD; auto]. 2:{ intros i Hi. apply (Hf (S i)). cbn [length]. lia. }
    pose proof (Hf 0%nat ltac:(cbn [length]; lia)) as F0. cbn [nth] in F0. rewrite F0. rewrite (lin_mul G g0 gadd gneg on HG) by assumption. rewrite (lin_add G g0 gadd gneg on HG) by assumption.
    cbn [dsum length]. rewrite Nat2Z.inj_succ, Z.mul_succ_r, Z.pow_add_r by lia. f_equal; ring.
Qed.
Lemma dsum_zeros k n : dsum k (repeat 0 n) = 0.
Proof. induction n as [|n IH]; cbn [repeat dsum]; [reflexivity|]. rewrite IH. ring. Qed.
Lemma wrap8_id d : -16 < d < 32 -> wrap8 d = d.
Proof. intros H. unfold wrap8. rewrite wrap_id; [reflexivity|lia|]. change (2 ^ (8 - 1)) with 128. lia. Qed.
Lemma map_wrap8 ds : Forall (wdigit 4) ds -> map wrap8 ds = ds /\ Forall odd15 ds.
Proof.
  intros H. induction H as [|d ds [Ho Hd] H [IH1 IH2]]; [split; [reflexivity|constructor]|]. change (2 ^ 4) with 16 in Hd. cbn [map]. rewrite wrap8_id, IH1 by lia. split; [reflexivity|].
  constructor; [|exact IH2]. split; [exact Ho|lia].
Qed.
(** the largest scalar the digit array accommodates *)
Definition NBITS : Z := Z.of_nat (NLEN c) * BASEBITS c.

Theorem mul_w_ok P A e : den P A -> big_wf c e -> 0 < V e -> V e + 2 < 2 ^ (NBITS - 4) -> exists R, ecp_mul_w r P e = Some R /\ den R (zt (V e) A).
Proof.
  intros H He H0 Hm. pose proof (po_on HP _ _ H) as OA. unfold ecp_mul_w. cbv zeta.
  pose proof (cf_B _ (cfg_ok_facts _ Hok)) as HB. pose proof (cf_N _ (cfg_ok_facts _ Hok)) as HN.
  assert (NBp : 16 <= NBITS) by (unfold NBITS; nia).
  assert (Bm : bmax c = 2 ^ NBITS) by (unfold bmax, NBITS; f_equal; ring).
  assert (B16 : 2 ^ NBITS = 16 * 2 ^ (NBITS - 4)). { replace NBITS with (4 + (NBITS - 4)) at 1 by ring. rewrite Z.pow_add_r by lia. reflexivity. }
  assert (P12 : 2 ^ 12 <= 2 ^ (NBITS - 4)) by (apply pow2_le; lia). change (2 ^ 12) with 4096 in P12.
  destruct (po_dbl HP P A H) as [Q [D1 D2]]. rewrite D1. cbn [bind].
  destruct (win_table_ok 7 P Q A _ H D2) as [W' [W1 [W2 W3]]]. rewrite W1. cbn [bind].
  destruct (make_odd_ok r Hok e He ltac:(lia)) as [t [ns [M1 [M2 [M3 M4]]]]]. rewrite M1. cbn [bind].
  assert (Ht : V t + 16 < bmax c) by lia. assert (T0 : 0 < V t) by lia.
  rewrite <- (ztimes_2 G g0 gadd gneg on HG) in D2, W3 by exact OA.
  assert (TAB : tab (P :: W') (fun i => zt (2 * i + 1) A)).
  { split; [cbn; congruence|]. intros [|i] w E; cbn [nth_error] in E.
    - injection E as <-. change (2 * Z.of_nat 0 + 1) with 1. rewrite (ztimes_1 G g0 gadd gneg on HG) by exact OA. exact H.
    - specialize (W3 i w E). rewrite (ztimes_mul G g0 gadd gneg on HG) in W3 by exact OA. replace (2 * Z.of_nat (S i) + 1) with (1 + (Z.of_nat i + 1) * 2) by lia.
      rewrite (ztimes_add G g0 gadd gneg on HG) by exact OA. rewrite (ztimes_1 G g0 gadd gneg on HG) by exact OA. exact W3. }
  assert (COR : exists C k, ecp_cmove r Q P ns = Some C /\ den C (zt k A) /\ V t = V e + k).
  { destruct M4 as [[-> M4]|[-> M4]]; rewrite (po_cmove HP Q P _ _ _ D2 H) by auto; eexists; eexists; (split; [reflexivity|]).
    - change (0 =? 1) with false. cbv iota. split; [exact D2|exact M4].
    - change (1 =? 1) with true. cbv iota. rewrite <- (ztimes_1 G g0 gadd gneg on HG) in H by exact OA. split; [exact H|exact M4]. }
  destruct COR as [C [kc [C1 [C2 C3]]]]. rewrite C1. cbn [bind]. rewrite (nbits_wf r Hok t M2 T0). cbn [bind].
  set (L := Z.log2 (V t)). assert (L0 : 0 <= L) by apply Z.log2_nonneg. assert (LV : V t < 2 ^ (L + 1)) by (unfold L; apply (Z.log2_spec (V t) T0)).
  assert (LU : L + 1 <= NBITS - 4). { assert (L < NBITS - 4); [|lia]. apply Z.log2_lt_pow2; lia. }
  set (nb := 1 + (L + 1 + 3) / 4).
  assert (NBct : (nb <? 1 + (Z.of_nat (NLEN c) * BASEBITS c + 3) / 4) = true).
  { apply Z.ltb_lt. unfold nb. fold NBITS. assert ((L + 1 + 3) / 4 < (NBITS + 3) / 4); [|lia]. assert (E4 : (NBITS + 3) / 4 = (NBITS - 1) / 4 + 1). { replace (NBITS + 3) with (NBITS - 1 + 1 * 4) by ring. rewrite Z.div_add by lia. reflexivity. }
    assert ((L + 1 + 3) / 4 <= (NBITS - 1) / 4) by (apply Z.div_le_mono; lia). lia. }
  rewrite NBct.
  assert (NB0 : 0 <= nb) by (unfold nb; assert (0 <= (L + 1 + 3) / 4) by (apply Z.div_pos; lia); lia).
  destruct (recode_ok r Hok (Z.to_nat nb) 4 t ltac:(lia) M2 M3 Ht) as [ds [t' [R1 [R2 [R3 [R4 [R5 [R6 [R7 R8]]]]]]]]]. rewrite R1. cbn [bind fst snd].
  assert (Et : V t' = 1). { apply R8. rewrite Z2Nat.id by exact NB0. apply Z.lt_le_trans with (1 := LV). apply pow2_le; unfold nb; pose proof (Z.div_mod (L + 1 + 3) 4 ltac:(lia)); pose proof (Z.mod_pos_bound (L + 1 + 3) 4 ltac:(lia)); lia. }
  rewrite (lastbits_wf c Hok t' 5 R3) by lia. cbn [bind fst]. rewrite Et. change (wrap8 (1 mod 2 ^ 5)) with 1. change (0 <? 1) with true. cbv iota. change (Z.to_nat ((1 - 1) / 2)) with 0%nat. cbn [nth_error bind].
  destruct (map_wrap8 ds R7) as [Em Eo]. rewrite Em.
  assert (Eor : Forall odd15 (rev ds)) by (apply Forall_rev; exact Eo).
  destruct (win_loop_ok 4 (P :: W') _ TAB (rev ds) P C A (zt kc A) Eor H C2) as [P1 [L1 L2]]. rewrite L1. cbn [bind].
  change (Z.of_nat 4) with 4 in L2.
  assert (EH : fold_left (fun a d => gadd (zt (2 ^ 4) a) (dig (fun i => zt (2 * i + 1) A) d)) (rev ds) A = zt (V t) A).
  { pose proof (horner A A 4 (dig (fun i => zt (2 * i + 1) A)) OA OA ltac:(lia) ds (repeat 0 (length ds)) 1 0 ds) as EH.
    rewrite repeat_length in EH. rewrite (lin_l G g0 gadd gneg on HG), (ztimes_1 G g0 gadd gneg on HG) in EH by exact OA. rewrite EH; [|reflexivity| |reflexivity].
    - rewrite dsum_zeros. rewrite (Z.mul_0_r _), Z.add_0_r. rewrite (lin_l G g0 gadd gneg on HG) by exact OA. f_equal. rewrite R6, R2, Et. reflexivity.
    - intros i Hi. rewrite nth_repeat, (lin_l G g0 gadd gneg on HG) by exact OA. rewrite Forall_forall in Eo. assert (Hd : odd15 (nth i ds 0)) by (apply Eo, nth_In; exact Hi). set (d := nth i ds 0) in *. clearbody d. clear - Hd OA HG. destruct Hd as [Ho _].
      apply Z.odd_spec in Ho. destruct Ho as [k ->]. unfold dig. destruct (Z.ltb_spec (2 * k + 1) 0) as [N|N].
      + rewrite <- (ztimes_opp G g0 gadd gneg on HG) by exact OA. f_equal. replace (- (2 * k + 1) - 1) with ((- k - 1) * 2) by ring. rewrite Z.div_mul by lia. ring.
      + f_equal. replace (2 * k + 1 - 1) with (k * 2) by ring. rewrite Z.div_mul by lia. ring. }
  rewrite EH in L2. destruct (po_sub P1 C _ _ L2 C2) as [R [S1 S2]]. exists R. split; [exact S1|].
  rewrite <- (ztimes_opp G g0 gadd gneg on HG), <- (ztimes_add G g0 gadd gneg on HG) in S2 by exact OA. replace (V e) with (V t + - kc) by lia. exact S2.
Qed.
Theorem mul_ok P A e : den P A -> big_wf c e -> V e + 2 < 2 ^ (NBITS - 4) -> exists R, ecp_mul r P e = Some R /\ den R (zt (V e) A) /\ nrml R (zt (V e) A).
Proof.
  intros H He Hm. unfold ecp_mul. pose proof (po_on HP _ _ H) as OA. pose proof (brange c Hok e He) as Re.
  assert (HB : 8 <= BASEBITS c) by (pose proof (cf_B _ (cfg_ok_facts _ Hok)); lia).
  rewrite (iszilch_spec c HB e (canon_nrm _ _ (proj2 He))). destruct (Z.eqb_spec (V e) 0) as [Z0|Z0].
  - cbn [bind]. rewrite Z0. change (zt 0 A) with g0. apply (po_new HP).
  - destruct (po_inf HP P A H) as [b [B1 B2]]. rewrite B1. cbn [bind]. destruct b.
    + rewrite (proj1 B2 eq_refl). assert (E : zt (V e) g0 = g0). { transitivity (zt (V e) (zt 0 g0)); [reflexivity|]. rewrite (ztimes_mul G g0 gadd gneg on HG) by apply (cg_0 _ _ _ _ _ HG). rewrite Z.mul_0_r. reflexivity. } rewrite E. apply (po_new HP).
    + rewrite Hnm. destruct (mul_w_ok P A e H He ltac:(lia) Hm) as [T [T1 T2]]. rewrite T1. cbn [bind]. destruct (po_affine HP T _ T2) as [R [R1 [R2 R3]]]. exists R. auto.
Qed.

(** ** the fixed-length ladder *)
Lemma ladder_p_ok A : on A -> forall n P0 P1 e a, 0 <= e < 2 ^ Z.of_nat n -> den P0 (zt a A) -> den P1 (zt (a + 1) A) ->
  exists R, ladder_p r (rev (seq 0 n)) e P0 P1 = Some R /\ den R (zt (a * 2 ^ Z.of_nat n + e) A).
Proof.
  intros OA. assert (G' : forall n P0 P1 e a, den P0 (zt a A) -> den P1 (zt (a + 1) A) ->
    exists R, ladder_p r (rev (seq 0 n)) e P0 P1 = Some R /\ den R (zt (a * 2 ^ Z.of_nat n + e mod 2 ^ Z.of_nat n) A)).
  { induction n as [|n IH]; intros P0 P1 e a D0 D1.
    - cbn [seq rev ladder_p]. exists P0. split; [reflexivity|]. change (2 ^ Z.of_nat 0) with 1. rewrite Z.mod_1_r. replace (a * 1 + 0) with a by ring. exact D0.
    - rewrite seq_S, rev_app_distr. cbn [rev app plus ladder_p].
      destruct (po_add HP P1 P0 _ _ D1 D0) as [P [E1 E2]]. rewrite E1. cbn [bind]. rewrite <- (ztimes_add G g0 gadd gneg on HG) in E2 by exact OA.
      set (b := Z.land (Z.shiftr e (Z.of_nat n)) 1). assert (Eb : b = (e / 2 ^ Z.of_nat n) mod 2). { unfold b. rewrite Z.shiftr_div_pow2 by lia. change 1 with (Z.ones 1). rewrite Z.land_ones by lia. reflexivity. }
      assert (Hb : b = 0 \/ b = 1). { pose proof (Z.mod_pos_bound (e / 2 ^ Z.of_nat n) 2 ltac:(lia)). lia. }
      rewrite (po_cswap HP P0 P1 _ _ b D0 D1 Hb). cbn [bind].
      assert (D2 : exists R0, ecp_dbl r (fst (if b =? 1 then (P1, P0) else (P0, P1))) = Some R0 /\ den R0 (zt (2 * (a + b)) A)).
      { destruct Hb as [-> | ->]; [change (0 =? 1) with false|change (1 =? 1) with true]; cbv iota; cbn [fst].
        - destruct (po_dbl HP P0 _ D0) as [R0 [F1 F2]]. exists R0. split; [exact F1|]. rewrite <- (ztimes_add G g0 gadd gneg on HG) in F2 by exact OA. replace (2 * (a + 0)) with (a + a) by ring. exact F2.
        - destruct (po_dbl HP P1 _ D1) as [R0 [F1 F2]]. exists R0. split; [exact F1|]. rewrite <- (ztimes_add G g0 gadd gneg on HG) in F2 by exact OA. replace (2 * (a + 1)) with (a + 1 + (a + 1)) by ring. exact F2. }
      destruct D2 as [R0 [F1 F2]]. rewrite F1. cbn [bind]. rewrite (po_cswap HP R0 P _ _ b F2 E2 Hb). cbn [bind].
      assert (D3 : exists R0' R1', (if b =? 1 then (P, R0) else (R0, P)) = (R0', R1') /\ den R0' (zt (2 * a + b) A) /\ den R1' (zt (2 * a + b + 1) A)).
      { destruct Hb as [Hb|Hb]; rewrite Hb in *; [change (0 =? 1) with false|change (1 =? 1) with true]; cbv iota; eexists; eexists; (split; [reflexivity|]).
        - split; [replace (2 * a + 0) with (2 * (a + 0)) by ring; exact F2|replace (2 * a + 0 + 1) with (a + 1 + a) by ring; exact E2].
        - split; [replace (2 * a + 1) with (a + 1 + a) by ring; exact E2|replace (2 * a + 1 + 1) with (2 * (a + 1)) by ring; exact F2]. }
      destruct D3 as [R0' [R1' [E3 [D4 D5]]]]. rewrite E3. cbn [fst snd]. destruct (IH R0' R1' e (2 * a + b) D4 D5) as [R [R1 R2]]. exists R. split; [exact R1|].
      replace (a * 2 ^ Z.of_nat (S n) + e mod 2 ^ Z.of_nat (S n)) with ((2 * a + b) * 2 ^ Z.of_nat n + e mod 2 ^ Z.of_nat n); [exact R2|].
      assert (EM : e mod 2 ^ Z.of_nat (S n) = e mod 2 ^ Z.of_nat n + 2 ^ Z.of_nat n * b).
      { rewrite Eb. rewrite Nat2Z.inj_succ, Z.pow_succ_r, Z.mul_comm by lia. apply Z.rem_mul_r; lia. }
      rewrite EM. rewrite Nat2Z.inj_succ, Z.pow_succ_r by lia. ring. }
  intros n P0 P1 e a He D0 D1. destruct (G' n P0 P1 e a D0 D1) as [R [R1 R2]]. rewrite Z.mod_small in R2 by exact He. exists R. auto.
Qed.
Theorem pinmul_ok P A e n : den P A -> 0 <= e < 2 ^ Z.of_nat n -> exists R, ecp_pinmul r P e n = Some R /\ den R (zt e A) /\ nrml R (zt e A).
Proof.
  intros H He. unfold ecp_pinmul. rewrite Hnm. pose proof (po_on HP _ _ H) as OA. destruct (po_new HP) as [R0 [N1 [N2 _]]]. rewrite N1. cbn [bind].
  rewrite <- (ztimes_1 G g0 gadd gneg on HG) in H by exact OA.
  destruct (ladder_p_ok A OA n R0 P e 0 He N2 H) as [Q [Q1 Q2]]. rewrite Q1. cbn [bind]. replace (0 * 2 ^ Z.of_nat n + e) with e in Q2 by ring.
  destruct (po_affine HP Q _ Q2) as [R [R1 [R2 R3]]]. exists R. auto.
Qed.

(** ** double multiplication *)
Lemma map2_nth f a b i : length a = length b -> (i < length a)%nat -> nth i (map2 f a b) 0 = f (nth i a 0) (nth i b 0).
Proof. revert b i. induction a as [|x a IH]; intros [|y b] i HL Hi; cbn in *; try lia. destruct i as [|i]; [reflexivity|]. apply IH; lia. Qed.
Lemma map2_length f a b : length a = length b -> length (map2 f a b) = length a.
Proof. revert b. induction a as [|x a IH]; intros [|y b] HL; cbn in *; try lia. rewrite IH by lia. reflexivity. Qed.
Lemma wd2 d : wdigit 2 d -> d = -3 \/ d = -1 \/ d = 1 \/ d = 3.
Proof. intros [Ho Hd]. change (2 ^ 2) with 4 in Hd. apply Z.odd_spec in Ho. destruct Ho as [k Hk]. lia. Qed.
(** the digit 4a+b, with a and b odd and at most 3 in absolute value, determines a and b *)
Definition t2a (i : Z) : Z := if i <? 4 then 1 else 3.
Definition t2b (i : Z) : Z := 2 * i + 1 - 4 * t2a i.
Lemma dig2 A B a b : on A -> on B -> wdigit 2 a -> wdigit 2 b -> odd15 (4 * a + b) /\ wrap8 (4 * a + b) = 4 * a + b /\ dig (fun i => Lin A B (t2a i) (t2b i)) (4 * a + b) = Lin A B a b.
Proof.
  intros HA HB Ha Hb. apply wd2 in Ha. apply wd2 in Hb.
  destruct Ha as [->|[->|[->| ->]]]; destruct Hb as [->|[->|[->| ->]]]; (split; [split; [reflexivity|lia]|split; [reflexivity|]]); unfold dig;
  match goal with |- context [?x <? 0] => let v := eval vm_compute in (x <? 0) in change (x <? 0) with v end; cbv iota;
  try (rewrite (lin_neg G g0 gadd gneg on HG) by assumption); reflexivity.
Qed.
Theorem mul2_ok P A e Q B f : den P A -> den Q B -> big_wf c e -> big_wf c f -> V e + V f + 4 < 2 ^ (NBITS - 4) ->
  exists R, ecp_mul2 r P e Q f = Some R /\ den R (gadd (zt (V e) A) (zt (V f) B)) /\ nrml R (gadd (zt (V e) A) (zt (V f) B)).
Proof.
  intros HPd HQd He Hf Hm. pose proof (po_on HP _ _ HPd) as OA. pose proof (po_on HP _ _ HQd) as OB. unfold ecp_mul2. cbv zeta.
  pose proof (brange c Hok e He) as Re. pose proof (brange c Hok f Hf) as Rf.
  pose proof (cf_B _ (cfg_ok_facts _ Hok)) as HB. pose proof (cf_N _ (cfg_ok_facts _ Hok)) as HN. pose proof (cf_C _ (cfg_ok_facts _ Hok)) as HC.
  assert (NBp : 16 <= NBITS) by (unfold NBITS; nia).
  assert (Bm : bmax c = 2 ^ NBITS) by (unfold bmax, NBITS; f_equal; ring).
  assert (B16 : 2 ^ NBITS = 16 * 2 ^ (NBITS - 4)). { replace NBITS with (4 + (NBITS - 4)) at 1 by ring. rewrite Z.pow_add_r by lia. reflexivity. }
  assert (P12 : 2 ^ 12 <= 2 ^ (NBITS - 4)) by (apply pow2_le; lia). change (2 ^ 12) with 4096 in P12.
  assert (LP : den P (Lin A B 1 0)). { rewrite (lin_l G g0 gadd gneg on HG), (ztimes_1 G g0 gadd gneg on HG) by assumption. exact HPd. }
  assert (LQ : den Q (Lin A B 0 1)). { rewrite (lin_r G g0 gadd gneg on HG), (ztimes_1 G g0 gadd gneg on HG) by assumption. exact HQd. }
  assert (LA : forall X Y a b a' b', den X (Lin A B a b) -> den Y (Lin A B a' b') -> exists R, ecp_add r X Y = Some R /\ den R (Lin A B (a + a') (b + b'))).
  { intros X Y a b a' b' H1 H2. destruct (po_add HP X Y _ _ H1 H2) as [R [R1 R2]]. exists R. split; [exact R1|]. rewrite (lin_add G g0 gadd gneg on HG) in R2 by assumption. exact R2. }
  assert (LS : forall X Y a b a' b', den X (Lin A B a b) -> den Y (Lin A B a' b') -> exists R, ecp_sub r X Y = Some R /\ den R (Lin A B (a - a') (b - b'))).
  { intros X Y a b a' b' H1 H2. destruct (po_sub X Y _ _ H1 H2) as [R [R1 R2]]. exists R. split; [exact R1|]. rewrite (lin_neg G g0 gadd gneg on HG), (lin_add G g0 gadd gneg on HG) in R2 by assumption. exact R2. }
  assert (LD : forall X a b, den X (Lin A B a b) -> exists R, ecp_dbl r X = Some R /\ den R (Lin A B (a + a) (b + b))).
  { intros X a b H1. destruct (po_dbl HP X _ H1) as [R [R1 R2]]. exists R. split; [exact R1|]. rewrite (lin_add G g0 gadd gneg on HG) in R2 by assumption. exact R2. }
  destruct (LS P Q _ _ _ _ LP LQ) as [W1 [E1 D1]]. rewrite E1. cbn [bind]. destruct (LA P Q _ _ _ _ LP LQ) as [W2 [E2 D2]]. rewrite E2. cbn [bind].
  destruct (LD Q _ _ LQ) as [S [ES DS]]. rewrite ES. cbn [bind]. destruct (LS W1 S _ _ _ _ D1 DS) as [W0 [E0 D0]]. rewrite E0. cbn [bind].
  destruct (LA W2 S _ _ _ _ D2 DS) as [W3 [E3 D3]]. rewrite E3. cbn [bind]. destruct (LD P _ _ LP) as [T [ET DT]]. rewrite ET. cbn [bind].
  destruct (LA W1 T _ _ _ _ D1 DT) as [W5 [E5 D5]]. rewrite E5. cbn [bind]. destruct (LA W2 T _ _ _ _ D2 DT) as [W6 [E6 D6]]. rewrite E6. cbn [bind].
  destruct (LS W5 S _ _ _ _ D5 DS) as [W4 [E4 D4]]. rewrite E4. cbn [bind]. destruct (LA W6 S _ _ _ _ D6 DS) as [W7 [E7 D7]]. rewrite E7. cbn [bind].
  assert (TAB : tab [W0; W1; W2; W3; W4; W5; W6; W7] (fun i => Lin A B (t2a i) (t2b i))).
  { split; [reflexivity|]. intros i w E. destruct i as [|[|[|[|[|[|[|[|i]]]]]]]]; cbn [nth_error] in E; try (injection E as <-; assumption). destruct i; discriminate E. }
  clear E0 E1 E2 E3 E4 E5 E6 E7 D0 D1 D2 D3 D4 D5 D6 D7.
  destruct (make_odd_ok r Hok e He ltac:(lia)) as [te [ne [M1 [M2 [M3 M4]]]]]. rewrite M1. cbn [bind].
  assert (CE : exists C k, ecp_cmove r T P ne = Some C /\ den C (Lin A B k 0) /\ V te = V e + k).
  { destruct M4 as [[-> M4]|[-> M4]]; rewrite (po_cmove HP T P _ _ _ DT LP) by auto; eexists; eexists; (split; [reflexivity|]).
    - change (0 =? 1) with false. cbv iota. split; [exact DT|exact M4].
    - change (1 =? 1) with true. cbv iota. split; [exact LP|exact M4]. }
  destruct CE as [T' [kc [C1 [C2 C3]]]]. rewrite C1. cbn [bind].
  destruct (make_odd_ok r Hok f Hf ltac:(lia)) as [tf [nf [N1 [N2 [N3 N4]]]]]. rewrite N1. cbn [bind].
  assert (CF : exists C k, ecp_cmove r S Q nf = Some C /\ den C (Lin A B 0 k) /\ V tf = V f + k).
  { destruct N4 as [[-> N4]|[-> N4]]; rewrite (po_cmove HP S Q _ _ _ DS LQ) by auto; eexists; eexists; (split; [reflexivity|]).
    - change (0 =? 1) with false. cbv iota. split; [exact DS|exact N4].
    - change (1 =? 1) with true. cbv iota. split; [exact LQ|exact N4]. }
  destruct CF as [S' [kf [F1 [F2 F3]]]]. rewrite F1. cbn [bind].
  destruct (LA T' S' _ _ _ _ C2 F2) as [C [G1 G2]]. rewrite G1. cbn [bind].
  assert (MT : exists mt, (s <- add c te tf ;; norm c s) = Some mt /\ big_wf c mt /\ V mt = V te + V tf).
  { assert (PC : 2 ^ (BASEBITS c + 2) <= 2 ^ (CHUNK c - 1)) by (apply pow2_le; lia). rewrite Z.pow_add_r in PC by lia. change (2 ^ 2) with 4 in PC.
    assert (PB : 0 < 2 ^ BASEBITS c) by (apply Z.pow_pos_nonneg; lia).
    assert (LL : length te = length tf) by (rewrite (proj1 M2), (proj1 N2); reflexivity).
    destruct (add_total c ltac:(lia) ltac:(lia) 0 (2 ^ BASEBITS c - 1) 0 (2 ^ BASEBITS c - 1) te tf) as [s [A1 A2]]; [apply canon_within; exact (proj2 M2)|apply canon_within; exact (proj2 N2)|exact LL|lia|lia|].
    pose proof (add_val c te tf s A1 LL) as [A3 A4]. rewrite A1. cbn [bind].
    destruct (norm_to_wf c Hok 2 s) as [mt [X1 [X2 X3]]]; [lia|lia|rewrite A4; exact (proj1 M2)| | |].
    - eapply Forall_impl; [|exact A2]. intros z Hz. cbv beta in Hz |- *. change (2 - 1) with 1. lia.
    - rewrite A3. lia.
    - exists mt. split; [exact X1|]. split; [exact X3|]. rewrite X2. exact A3. }
  destruct MT as [mt [MT1 [MT2 MT3]]].
  assert (MT' : forall (X : Type) (g : list Z -> option X), (mt0 <- add c te tf ;; mt1 <- norm c mt0 ;; g mt1) = g mt).
  { intros X g. destruct (add c te tf) as [s|]; [|discriminate MT1]. cbn [bind] in *. rewrite MT1. reflexivity. }
  rewrite MT'. clear MT' MT1. assert (M0 : 0 < V mt) by lia. rewrite (nbits_wf r Hok mt MT2 M0). cbn [bind].
  set (L := Z.log2 (V mt)). assert (L0 : 0 <= L) by apply Z.log2_nonneg. assert (LV : V mt < 2 ^ (L + 1)) by (unfold L; apply (Z.log2_spec (V mt) M0)).
  assert (LU : L + 1 <= NBITS - 4). { assert (L < NBITS - 4); [|lia]. apply Z.log2_lt_pow2; lia. }
  set (nb := 1 + (L + 1 + 1) / 2).
  assert (NBct : (nb <? 1 + (Z.of_nat (NLEN c) * BASEBITS c + 1) / 2) = true).
  { apply Z.ltb_lt. unfold nb. fold NBITS. assert ((L + 1 + 1) / 2 < (NBITS + 1) / 2); [|lia]. assert (E4 : (NBITS + 1) / 2 = (NBITS - 1) / 2 + 1). { replace (NBITS + 1) with (NBITS - 1 + 1 * 2) by ring. rewrite Z.div_add by lia. reflexivity. }
    assert ((L + 1 + 1) / 2 <= (NBITS - 1) / 2) by (apply Z.div_le_mono; lia). lia. }
  rewrite NBct.
  assert (NB0 : 0 <= nb) by (unfold nb; assert (0 <= (L + 1 + 1) / 2) by (apply Z.div_pos; lia); lia).
  assert (PW : 2 ^ (L + 1) <= 2 ^ (2 * Z.of_nat (Z.to_nat nb) + 1)). { rewrite Z2Nat.id by exact NB0. apply pow2_le; unfold nb; pose proof (Z.div_mod (L + 1 + 1) 2 ltac:(lia)); pose proof (Z.mod_pos_bound (L + 1 + 1) 2 ltac:(lia)); lia. }
  destruct (recode_ok r Hok (Z.to_nat nb) 2 te ltac:(lia) M2 M3 ltac:(lia)) as [de [te' [R1 [R2 [R3 [R4 [R5 [R6 [R7 R8]]]]]]]]]. rewrite R1. cbn [bind fst snd].
  destruct (recode_ok r Hok (Z.to_nat nb) 2 tf ltac:(lia) N2 N3 ltac:(lia)) as [df [tf' [Q1 [Q2 [Q3 [Q4 [Q5 [Q6 [Q7 Q8]]]]]]]]]. rewrite Q1. cbn [bind fst snd].
  assert (Ee : V te' = 1) by (apply R8; lia). assert (Ef : V tf' = 1) by (apply Q8; lia).
  rewrite (lastbits_wf c Hok te' 3 R3), (lastbits_wf c Hok tf' 3 Q3) by lia. cbn [bind fst]. rewrite Ee, Ef. change (wrap8 (4 * (1 mod 2 ^ 3) + 1 mod 2 ^ 3)) with 5. change (0 <? 5) with true. cbv iota. change (Z.to_nat ((5 - 1) / 2)) with 2%nat.
  assert (EN : exists S0, nth_error [W0; W1; W2; W3; W4; W5; W6; W7] 2 = Some S0 /\ den S0 (Lin A B 1 1)). { exists W2. split; [reflexivity|]. exact (proj2 TAB 2%nat W2 eq_refl). }
  destruct EN as [S0 [EN1 EN2]]. rewrite EN1. cbn [bind]. clear EN1.
  set (DD := map2 (fun a b => wrap8 (4 * a + b)) de df).
  assert (LE : length de = length df) by congruence. assert (LDD : length DD = length de) by (apply map2_length; exact LE).
  assert (ND : forall i, (i < length de)%nat -> odd15 (nth i DD 0) /\ dig (fun i => Lin A B (t2a i) (t2b i)) (nth i DD 0) = Lin A B (nth i de 0) (nth i df 0)).
  { intros i Hi. unfold DD. rewrite map2_nth by assumption. rewrite Forall_forall in R7, Q7.
    destruct (dig2 A B (nth i de 0) (nth i df 0) OA OB) as [X1 [X2 X3]]; [apply R7, nth_In; exact Hi|apply Q7, nth_In; rewrite <- LE; exact Hi|]. rewrite X2. auto. }
  assert (FD : Forall odd15 (rev DD)). { apply Forall_rev, Forall_forall. intros d Hd. apply (In_nth _ _ 0) in Hd. destruct Hd as [i [Hi <-]]. apply ND. rewrite <- LDD. exact Hi. }
  destruct (win_loop_ok 2 _ _ TAB (rev DD) S0 T' _ _ FD EN2 C2) as [S1 [L1 L2]]. rewrite L1. cbn [bind]. change (Z.of_nat 2) with 2 in L2.
  rewrite (horner A B 2 (dig (fun i => Lin A B (t2a i) (t2b i))) OA OB ltac:(lia) de df 1 1 DD LE) in L2; [|intros i Hi; apply ND; exact Hi|exact LDD].
  destruct (LS S1 C _ _ _ _ L2 G2) as [S2 [H1 H2]]. rewrite H1. cbn [bind].
  assert (EL : Lin A B (dsum 2 de + 2 ^ (2 * Z.of_nat (length de)) * 1 - (kc + 0)) (dsum 2 df + 2 ^ (2 * Z.of_nat (length de)) * 1 - (0 + kf)) = gadd (zt (V e) A) (zt (V f) B)).
  { unfold lin. rewrite R2. f_equal; f_equal; [rewrite Ee in R6|rewrite Ef in Q6]; lia. }
  rewrite EL in H2. apply (po_affine HP); exact H2.
Qed.
End EMul.
