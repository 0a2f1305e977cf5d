(** C01-C09, C11, C12, C17, C18, C49: multi-limb integers.
    [bval c w] is the integer a limb vector denotes (Spec/BigSpec.v), [big_wf c w] says that
    [w] has NLEN limbs, each in [0, 2^BASEBITS).  [f c ... = Some r] means that the Rust code
    returns [r] without any overflow, bad index or non-termination; [None] is a panic
    (or an endless loop).  All theorems hold for every configuration meeting [cfg_ok];
    [all_cfgs_ok] shows that every ROM of the repository does. *)
From Verif Require Import Base.Word Model.Big Model.Roms Spec.BigSpec Spec.Bytes
  Proof.BigVal Proof.BigShift Proof.BigBytes Proof.BigMul Proof.BigSqr Proof.BigMonty Proof.BigMod Proof.BigInv Proof.BigMisc Proof.BigInv2m.
From Coq Require Import Psatz.

Theorem all_cfgs_ok : Forall (fun c => cfg_ok c /\ (8 * MODBYTES c) mod BASEBITS c <> 0) all_cfgs.
Proof. repeat constructor; vm_compute; congruence. Qed.
Print Assumptions all_cfgs_ok.

Notation MB c := (Z.to_nat (MODBYTES c)).

(** ** C01 *)
Theorem C01_write_then_read : forall c w b, cfg_ok c -> big_wf c w -> bval c w < 256 ^ MODBYTES c -> length b = MB c ->
  exists bs, tobytes c w b = Some bs /\ length bs = MB c /\ bytes bs /\ os2ip bs = bval c w /\ frombytes c bs = Some w.
Proof.
  intros c w b Hok Hw Hv Hb. pose proof (cfg_ok_facts c Hok) as F. pose proof (cf_B c F) as HB. pose proof (cf_M c F) as HM.
  assert (E : tobytes c w b = Some (i2osp (bval c w) (MB c))).
  { unfold tobytes. rewrite (tobytearray_spec c Hok w b 0 Hw) by lia. rewrite skipn_all2 by lia. rewrite app_nil_r. reflexivity. }
  assert (EV : os2ip (i2osp (bval c w) (MB c)) = bval c w).
  { rewrite os2ip_i2osp, Z2Nat.id by lia. apply Z.mod_small. split; [|exact Hv]. apply (brange c Hok w Hw). }
  exists (i2osp (bval c w) (MB c)). split; [exact E|]. split; [apply i2osp_length|]. split; [apply i2osp_bytes|]. split; [exact EV|].
  destruct (frombytearray_spec c Hok (i2osp (bval c w) (MB c)) 0 (i2osp_bytes _ _)) as [r [R1 [R2 R3]]]; [rewrite i2osp_length; lia|].
  unfold frombytes. rewrite R1. f_equal. rewrite i2osp_length, Nat.min_id in R3. cbn [skipn] in R3.
  rewrite firstn_all2 in R3 by (rewrite i2osp_length; lia). rewrite EV in R3.
  apply (nrm_inj (BASEBITS c)); [lia|apply canon_nrm; apply R2|apply canon_nrm; apply Hw|rewrite (proj1 R2), (proj1 Hw); reflexivity|exact R3].
Qed.
Print Assumptions C01_write_then_read.

Theorem C01_read_then_write : forall c bs b, cfg_ok c -> bytes bs -> length bs = MB c -> length b = MB c ->
  exists w, frombytes c bs = Some w /\ big_wf c w /\ bval c w = os2ip bs /\ tobytes c w b = Some bs.
Proof.
  intros c bs b Hok Hbs Hl Hb.
  destruct (frombytearray_spec c Hok bs 0 Hbs ltac:(lia)) as [r [R1 [R2 R3]]].
  rewrite Hl, Nat.min_id in R3. cbn [skipn] in R3. rewrite firstn_all2 in R3 by lia.
  exists r. split; [exact R1|]. split; [exact R2|]. split; [exact R3|].
  unfold tobytes. rewrite (tobytearray_spec c Hok r b 0 R2) by lia. cbn [firstn app Nat.add]. rewrite skipn_all2, app_nil_r by lia.
  f_equal. rewrite R3, <- Hl. apply i2osp_os2ip. exact Hbs.
Qed.
Print Assumptions C01_read_then_write.

(** at an offset, inside a larger buffer; only the MODBYTES bytes at the offset change *)
Theorem C01_offset : forall c w b n, cfg_ok c -> big_wf c w -> (n + MB c <= length b)%nat ->
  tobytearray c w b n = Some (firstn n b ++ i2osp (bval c w) (MB c) ++ skipn (n + MB c) b).
Proof. intros c w b n Hok Hw H. exact (tobytearray_spec c Hok w b n Hw H). Qed.
Print Assumptions C01_offset.
(** strings shorter than MODBYTES are read as they are, longer ones are cut after MODBYTES bytes *)
Theorem C01_any_length : forall c bs, cfg_ok c -> bytes bs ->
  exists w, frombytes c bs = Some w /\ big_wf c w /\ bval c w = os2ip (firstn (MB c) bs).
Proof.
  intros c bs Hok Hbs. destruct (frombytearray_spec c Hok bs 0 Hbs ltac:(lia)) as [r [R1 [R2 R3]]].
  exists r. split; [exact R1|]. split; [exact R2|]. cbn [skipn] in R3. unfold bval. rewrite R3. f_equal.
  destruct (Nat.le_ge_cases (MB c) (length bs)).
  - rewrite Nat.min_l by lia. reflexivity.
  - rewrite Nat.min_r by lia. rewrite !firstn_all2 by lia. reflexivity.
Qed.
Print Assumptions C01_any_length.
(** DBig::frombytes *)
Theorem C01_dbig_read : forall c bs, cfg_ok c -> bytes bs ->
  exists w, dfrombytes c bs = Some w /\ dbig_wf c w /\ bval c w = os2ip (firstn (Z.to_nat (2 * MODBYTES c)) bs).
Proof. intros c bs Hok Hb. exact (dfrombytes_spec c Hok bs Hb). Qed.
Print Assumptions C01_dbig_read.
Example C01_witness : let bs := repeat 0 40 ++ [1; 2; 3; 4; 5; 6; 7; 8] in
  cfg_ok cfg_bls381_64 /\ bytes bs /\ length bs = 48%nat /\
  frombytes cfg_bls381_64 bs = Some [0x102030405060708; 0; 0; 0; 0; 0; 0].
Proof. split; [reflexivity|]. split; [repeat constructor; lia|]. split; reflexivity. Qed.

(** ** C02 *)
Theorem C02_norm : forall c w, cfg_ok c -> length w = NLEN c -> (8 * MODBYTES c) mod BASEBITS c <> 0 ->
  within (- (3 * 2 ^ BASEBITS c)) (3 * 2 ^ BASEBITS c - 1) w ->
  exists r, norm c w = Some r /\ length r = NLEN c /\ bval c r = bval c w /\ nrm (BASEBITS c) r
    /\ excess_of c r = bval c w / 2 ^ (8 * MODBYTES c)
    /\ (0 <= bval c w < bmax c -> big_wf c r).
Proof.
  intros c w Hok Hl Hnz Hw. pose proof (cfg_ok_facts c Hok) as F. pose proof (cf_B c F) as HB. pose proof (cf_C c F) as HC.
  pose proof (cf_N c F) as HN. pose proof (cf_M c F). pose proof (cf_cap c F) as Hc1. pose proof (cf_cap2 c F) as Hc2.
  destruct (norm_total c ltac:(lia) HC w) as [r [N1 [N2 [N3 N4]]]].
  { eapply within_small; [exact Hw| |]; pose proof (Mlim_ge c ltac:(lia) HC); lia. }
  exists r. split; [exact N1|]. split; [lia|]. split; [exact N2|]. split; [exact N3|]. split.
  - unfold excess_of. rewrite (nrm_last (BASEBITS c) r) by (try lia; try exact N3; intros E; rewrite E in N4; cbn in N4; lia).
    rewrite N4, Hl, N2.
    assert (Em : (8 * MODBYTES c) mod BASEBITS c = 8 * MODBYTES c - BASEBITS c * (Z.of_nat (NLEN c) - 1)).
    { destruct (Z.eq_dec (8 * MODBYTES c) (BASEBITS c * Z.of_nat (NLEN c))) as [E|E].
      - exfalso. apply Hnz. rewrite E, Z.mul_comm. apply Z.mod_mul. lia.
      - symmetry. apply (Z.mod_unique _ _ (Z.of_nat (NLEN c) - 1)); [left|]; lia. }
    rewrite Z.shiftr_div_pow2 by (rewrite Em; lia). rewrite Z.div_div; [| |apply pow2_pos; rewrite Em; lia].
    + rewrite <- Z.pow_add_r; [|apply Z.mul_nonneg_nonneg; lia|rewrite Em; lia]. unfold bval. f_equal. f_equal.
      rewrite Em, Nat2Z.inj_sub by lia. lia.
    + assert (0 < 2 ^ (BASEBITS c * Z.of_nat (NLEN c - 1))) by (apply pow2_pos; apply Z.mul_nonneg_nonneg; lia). lia.
  - intros Hr. split; [lia|]. apply (nrm_canon (BASEBITS c) r (NLEN c)); [lia|exact N3|lia|]. rewrite N2. exact Hr.
Qed.
Print Assumptions C02_norm.
Theorem C02_dnorm : forall c w, cfg_ok c ->
  within (- (3 * 2 ^ BASEBITS c)) (3 * 2 ^ BASEBITS c - 1) w ->
  exists r, norm c w = Some r /\ length r = length w /\ bval c r = bval c w /\ nrm (BASEBITS c) r.
Proof.
  intros c w Hok Hw. pose proof (cfg_ok_facts c Hok) as F. pose proof (cf_B c F) as HB. pose proof (cf_C c F) as HC.
  destruct (norm_total c ltac:(lia) HC w) as [r [N1 [N2 [N3 N4]]]].
  { eapply within_small; [exact Hw| |]; pose proof (Mlim_ge c ltac:(lia) HC); lia. }
  exists r. repeat (split; [assumption|]). assumption.
Qed.
Print Assumptions C02_dnorm.
Example C02_witness : norm cfg_bls381_64 [-1; -1; 2 ^ 59; 0; 5; 0; 1] = Some [2 ^ 58 - 1; 2 ^ 58 - 2; 2 ^ 58 - 1; 1; 5; 0; 1]
  /\ excess_of cfg_bls381_64 [2 ^ 58 - 1; 2 ^ 58 - 2; 2 ^ 58 - 1; 1; 5; 0; 1] = 0.
Proof. split; reflexivity. Qed.

(** ** C03: for operands that came out of norm (all limbs but the top one are digits) *)
Definition order_sign (x y : Z) : Z := if x <? y then -1 else if x =? y then 0 else 1.
Theorem C03_comp : forall c a b, cfg_ok c -> length a = length b -> nrm (BASEBITS c) a -> nrm (BASEBITS c) b ->
  comp a b = order_sign (bval c a) (bval c b).
Proof.
  intros c a b Hok Hl Ha Hb. pose proof (cfg_ok_facts c Hok) as F. pose proof (cf_B c F).
  rewrite (comp_spec c) by (try lia; assumption). unfold order_sign, bval.
  destruct (Z.compare_spec (val (BASEBITS c) a) (val (BASEBITS c) b)) as [E|E|E].
  - rewrite E, Z.ltb_irrefl, Z.eqb_refl. reflexivity.
  - rewrite (proj2 (Z.ltb_lt _ _) E). reflexivity.
  - rewrite (proj2 (Z.ltb_ge _ _)) by lia. rewrite (proj2 (Z.eqb_neq _ _)) by lia. reflexivity.
Qed.
Print Assumptions C03_comp.
(** representations are unique, so equality of limbs is equality of integers *)
Theorem C03_unique : forall c a b, cfg_ok c -> big_wf c a -> big_wf c b -> bval c a = bval c b -> a = b.
Proof.
  intros c a b Hok Ha Hb. pose proof (cfg_ok_facts c Hok) as F. pose proof (cf_B c F).
  apply nrm_inj; [lia|apply canon_nrm; apply Ha|apply canon_nrm; apply Hb|rewrite (proj1 Ha), (proj1 Hb); reflexivity].
Qed.
Print Assumptions C03_unique.
Theorem C03_iszero : forall c a, cfg_ok c -> nrm (BASEBITS c) a -> iszilch a = (bval c a =? 0).
Proof. intros c a Hok Ha. pose proof (cfg_ok_facts c Hok) as F. pose proof (cf_B c F). apply iszilch_spec; [lia|exact Ha]. Qed.
Print Assumptions C03_iszero.
Example C03_witness : comp [5; 7] [4; 8] = -1 /\ bval cfg_bls381_64 [5; 7] < bval cfg_bls381_64 [4; 8].
Proof. split; reflexivity. Qed.

(** ** C04: the headroom of a word is [-2^(CHUNK-1), 2^(CHUNK-1)) *)
Definition half (c : cfg) : Z := 2 ^ (CHUNK c - 1).
Theorem C04_add : forall c a b l1 h1 l2 h2, cfg_ok c -> length a = length b -> within l1 h1 a -> within l2 h2 b ->
  - half c <= l1 + l2 -> h1 + h2 < half c ->
  exists r, add c a b = Some r /\ bval c r = bval c a + bval c b /\ length r = length a /\ within (l1 + l2) (h1 + h2) r.
Proof.
  intros c a b l1 h1 l2 h2 Hok Hl Ha Hb H1 H2. pose proof (cfg_ok_facts c Hok) as F. pose proof (cf_B c F).
  destruct (add_total c ltac:(lia) (cf_C c F) l1 h1 l2 h2 a b Ha Hb Hl H1 H2) as [r [R1 R2]].
  destruct (add_val c a b r R1 Hl) as [V L]. exists r. repeat (split; [assumption|]). assumption.
Qed.
Print Assumptions C04_add.
Theorem C04_sub : forall c a b l1 h1 l2 h2, cfg_ok c -> length a = length b -> within l1 h1 a -> within l2 h2 b ->
  - half c <= l1 - h2 -> h1 - l2 < half c ->
  exists r, sub c a b = Some r /\ bval c r = bval c a - bval c b /\ length r = length a /\ within (l1 - h2) (h1 - l2) r
    /\ rsub c b a = Some r.
Proof.
  intros c a b l1 h1 l2 h2 Hok Hl Ha Hb H1 H2. pose proof (cfg_ok_facts c Hok) as F. pose proof (cf_B c F).
  destruct (sub_total c ltac:(lia) (cf_C c F) l1 h1 l2 h2 a b Ha Hb Hl H1 H2) as [r [R1 R2]].
  destruct (sub_val c a b r R1 Hl) as [V L]. exists r. repeat (split; [assumption|]).
  rewrite <- R1. clear. unfold rsub, sub. revert b. induction a as [|x a IH]; intros [|y b]; try reflexivity. cbn [map2o].
  rewrite IH. reflexivity.
Qed.
Print Assumptions C04_sub.
Theorem C04_imul : forall c a k h, cfg_ok c -> within 0 h a -> 0 <= k < half c -> h * k < half c ->
  exists r, imul c a k = Some r /\ bval c r = bval c a * k /\ length r = length a.
Proof.
  intros c a k h Hok Ha Hk Hh. pose proof (cfg_ok_facts c Hok) as F. pose proof (cf_B c F). pose proof (cf_C c F).
  destruct (imul_total c ltac:(lia) (cf_C c F) 0 h a k Ha ltac:(lia) Hk Hh) as [r [R1 R2]].
  destruct (imul_val c a k r R1) as [V L]. rewrite wrap_id in V by (unfold half in *; lia).
  exists r. split; [exact R1|]. split; assumption.
Qed.
Print Assumptions C04_imul.
Theorem C04_pmul : forall c w k, cfg_ok c -> big_wf c w -> 0 <= k < 2 ^ BASEBITS c ->
  exists carry r, pmul c w k = Some (carry, r) /\ big_wf c r /\ bval c r + bmax c * carry = bval c w * k.
Proof. intros c w k Hok Hw Hk. destruct (pmul_spec c Hok w k Hw Hk) as [t [r [H1 [H2 [H3 H4]]]]]. exists t, r. auto. Qed.
Print Assumptions C04_pmul.
Theorem C04_pxmul : forall c w k, cfg_ok c -> big_wf c w -> 0 <= k < 2 ^ BASEBITS c ->
  exists r, pxmul c w k = Some r /\ dbig_wf c r /\ bval c r = bval c w * k.
Proof. intros c w k Hok Hw Hk. exact (pxmul_spec c Hok w k Hw Hk). Qed.
Print Assumptions C04_pxmul.
Theorem C04_inc_dec : forall c w x, cfg_ok c -> big_wf c w -> 0 <= x < 2 ^ BASEBITS c ->
  (exists r, inc c w x = Some r /\ bval c r = bval c w + x) /\ (exists r, dec c w x = Some r /\ bval c r = bval c w - x).
Proof.
  intros c w x Hok Hw Hx. destruct (inc_spec c Hok w x Hw Hx) as [r [R1 [_ [R2 _]]]]. destruct (dec_spec c Hok w x Hw Hx) as [s [S1 [_ [S2 _]]]].
  split; [exists r|exists s]; split; assumption.
Qed.
Print Assumptions C04_inc_dec.
Theorem C04_div3 : forall c w, cfg_ok c -> big_wf c w ->
  exists r, div3 c w = Some (bval c w mod 3, r) /\ big_wf c r /\ bval c r = bval c w / 3.
Proof. intros c w Hok Hw. exact (div3_spec c Hok w Hw). Qed.
Print Assumptions C04_div3.
Example C04_witness : add cfg_bls381_64 [2 ^ 63 - 2; 1] [1; 2] = Some [2 ^ 63 - 1; 3] /\ add cfg_bls381_64 [2 ^ 63 - 1; 1] [1; 2] = None.
Proof. split; reflexivity. Qed.

(** ** C05 *)
Theorem C05_shr : forall c w k, cfg_ok c -> canon (BASEBITS c) w -> 0 <= k < BASEBITS c * Z.of_nat (length w) ->
  exists r, shr c w k = Some r /\ length r = length w /\ canon (BASEBITS c) r /\ bval c r = bval c w / 2 ^ k.
Proof.
  intros c w k Hok Hw Hk. pose proof (cfg_ok_facts c Hok) as F. pose proof (cf_B c F).
  destruct (shr_spec c ltac:(lia) (cf_C c F) w k Hk Hw) as [r [R1 [R2 [R3 R4]]]]. exists r. auto.
Qed.
Print Assumptions C05_shr.
(** the bound on k is exact: a shift by the full width of the number or more panics instead of giving 0 *)
Theorem C05_shr_domain : forall c w k, cfg_ok c -> 0 <= k -> (shr c w k = None <-> BASEBITS c * Z.of_nat (length w) <= k).
Proof.
  intros c w k Hok Hk. pose proof (cfg_ok_facts _ Hok) as F. assert (HB : 0 < BASEBITS c) by (pose proof (cf_B _ F); lia).
  unfold shr. cbv zeta. destruct (Nat.ltb_spec (Z.to_nat (k / BASEBITS c)) (length w)) as [L|L].
  - split; [discriminate|]. intros X. exfalso. assert (Y : Z.of_nat (length w) <= k / BASEBITS c) by (apply Z.div_le_lower_bound; [exact HB|exact X]). lia.
  - split; [intros _|reflexivity]. assert (Y : Z.of_nat (length w) <= k / BASEBITS c) by (pose proof (Z.div_pos k _ Hk HB) as D0; revert L D0; generalize (k / BASEBITS c); intros z L D0; lia).
    pose proof (Z.mul_div_le k (BASEBITS c) HB) as M. eapply Z.le_trans; [|exact M]. apply Z.mul_le_mono_nonneg_l; lia.
Qed.
Print Assumptions C05_shr_domain.
Theorem C05_fshr : forall c w k, cfg_ok c -> canon (BASEBITS c) w -> w <> [] -> 0 <= k <= BASEBITS c ->
  exists r, fshr c w k = Some (bval c w mod 2 ^ k, r) /\ length r = length w /\ canon (BASEBITS c) r /\ bval c r = bval c w / 2 ^ k.
Proof.
  intros c w k Hok Hw Hne Hk. pose proof (cfg_ok_facts c Hok) as F. pose proof (cf_B c F).
  destruct (fshr_canon c ltac:(lia) (cf_C c F) w k Hk Hw Hne) as [r [R1 [R2 [R3 R4]]]]. exists r. auto.
Qed.
Print Assumptions C05_fshr.
Theorem C05_shl : forall c w k, cfg_ok c -> canon (BASEBITS c) w -> (2 <= length w)%nat -> 0 <= k < BASEBITS c * Z.of_nat (length w) ->
  bval c w * 2 ^ k < 2 ^ (BASEBITS c * Z.of_nat (length w)) ->
  exists r, shl c w k = Some r /\ length r = length w /\ canon (BASEBITS c) r /\ bval c r = bval c w * 2 ^ k.
Proof.
  intros c w k Hok Hw Hl Hk Hv. pose proof (cfg_ok_facts c Hok) as F. pose proof (cf_B c F).
  destruct (shl_spec c ltac:(lia) (cf_C c F) w k ltac:(lia) Hw Hl ltac:(lia) Hv) as [r [R1 [R2 [R3 R4]]]]. exists r. auto.
Qed.
Print Assumptions C05_shl.
(** fshl leaves the excess in the top limb, so the product need only fit the top word *)
Theorem C05_fshl : forall c w k, cfg_ok c -> canon (BASEBITS c) w -> (2 <= length w)%nat -> 0 <= k <= BASEBITS c ->
  last w 0 * 2 ^ k < half c ->
  exists r, fshl c w k = Some r /\ length r = length w /\ nrm (BASEBITS c) r /\ bval c r = bval c w * 2 ^ k.
Proof.
  intros c w k Hok Hw Hl Hk Hv. pose proof (cfg_ok_facts c Hok) as F. pose proof (cf_B c F).
  destruct (fshl_spec c ltac:(lia) (cf_C c F) w k Hk Hl (canon_nrm _ _ Hw)) as [r [R1 [R2 [R3 R4]]]]; [|exists r; auto].
  split; [|exact Hv]. pose proof (canon_last c ltac:(lia) w Hw). pose proof (pow2_pos k ltac:(lia)). apply Z.mul_nonneg_nonneg; lia.
Qed.
Print Assumptions C05_fshl.
Theorem C05_mod2m : forall c w m, cfg_ok c -> canon (BASEBITS c) w -> 0 <= m < BASEBITS c * Z.of_nat (length w) ->
  exists r, mod2m c w m = Some r /\ length r = length w /\ canon (BASEBITS c) r /\ bval c r = bval c w mod 2 ^ m.
Proof.
  intros c w k Hok Hw Hk. pose proof (cfg_ok_facts c Hok) as F. pose proof (cf_B c F).
  destruct (mod2m_spec c ltac:(lia) (cf_C c F) w k Hk Hw) as [r [R1 [R2 [R3 R4]]]]. exists r. auto.
Qed.
Print Assumptions C05_mod2m.
Theorem C05_bits : forall c w n, cfg_ok c -> big_wf c w ->
  parity w = bval c w mod 2
  /\ (0 <= n < BASEBITS c * Z.of_nat (NLEN c) -> bit c w n = Some (if Z.testbit (bval c w) n then 1 else 0))
  /\ (0 <= n <= BASEBITS c -> lastbits c w n = Some (bval c w mod 2 ^ n, w)).
Proof.
  intros c w n Hok Hw. pose proof (cfg_ok_facts c Hok) as F. pose proof (cf_B c F). split; [apply parity_wf; assumption|]. split.
  - intros Hn. apply (bit_spec c ltac:(lia) (cf_C c F) w n); [rewrite (proj1 Hw); exact Hn|exact (proj2 Hw)].
  - intros Hn. unfold lastbits. rewrite (norm_wf c Hok w Hw). cbn [bind]. rewrite (get0_land c w n); [reflexivity|exact Hn|]. apply (bne c Hok w Hw).
Qed.
Print Assumptions C05_bits.
Theorem C05_split : forall c d n, cfg_ok c -> dbig_wf c d ->
  BASEBITS c * (Z.of_nat (NLEN c) - 1) <= n < BASEBITS c * Z.of_nat (NLEN c) -> bval c d / 2 ^ n < bmax c ->
  exists hi lo, split c d n = (hi, lo) /\ big_wf c hi /\ bval c hi = bval c d / 2 ^ n
    /\ big_wf c (big_dcopy c lo) /\ bval c (big_dcopy c lo) = bval c d mod 2 ^ n.
Proof. intros c d n Hok Hd Hn Hv. exact (split_spec c Hok d n Hd Hn Hv). Qed.
Print Assumptions C05_split.
Example C05_witness : shr cfg_bls381_64 [6; 0; 5; 0; 0; 0; 0] 117 = Some [2; 0; 0; 0; 0; 0; 0] /\
  shl cfg_bls381_64 [6; 0; 5; 0; 0; 0; 0] 57 = Some [0; 3; 2 ^ 57; 2; 0; 0; 0].
Proof. split; reflexivity. Qed.

(** ** C06 *)
Theorem C06_mul : forall c a b, cfg_ok c -> big_wf c a -> big_wf c b ->
  exists r, mul c a b = Some r /\ dbig_wf c r /\ bval c r = bval c a * bval c b.
Proof. intros c a b Hok Ha Hb. exact (mul_spec c Hok a b Ha Hb). Qed.
Print Assumptions C06_mul.
Theorem C06_sqr : forall c a, cfg_ok c -> big_wf c a ->
  exists r, sqr c a = Some r /\ dbig_wf c r /\ bval c r = bval c a * bval c a.
Proof. intros c a Hok Ha. exact (sqr_spec c Hok a Ha). Qed.
Print Assumptions C06_sqr.
Theorem C06_smul : forall c a b, cfg_ok c -> big_wf c a -> big_wf c b ->
  exists r, smul c a b = Some r /\ big_wf c r /\ bval c r = (bval c a * bval c b) mod bmax c.
Proof. intros c a b Hok Ha Hb. exact (smul_spec c Hok a b Ha Hb). Qed.
Print Assumptions C06_smul.
Example C06_witness : let w := repeat (2 ^ 58 - 1) 7 in big_wf cfg_bls381_64 w /\ bval cfg_bls381_64 w = 2 ^ 406 - 1
  /\ sqr cfg_bls381_64 w = mul cfg_bls381_64 w w /\ mul cfg_bls381_64 w w <> None.
Proof. split; [split; [reflexivity|repeat constructor; lia]|]. split; [reflexivity|]. split; [vm_compute; reflexivity|vm_compute; discriminate]. Qed.

(** ** C07 *)
Theorem C07_rmod : forall c x m, cfg_ok c -> big_wf c x -> big_wf c m -> 0 < bval c m ->
  exists r, rmod c x m = Some r /\ big_wf c r /\ bval c r = bval c x mod bval c m.
Proof. intros c x m Hok Hx Hm Hp. exact (rmod_spec c Hok x m Hx Hm Hp). Qed.
Print Assumptions C07_rmod.
Theorem C07_dmod : forall c x m, cfg_ok c -> dbig_wf c x -> big_wf c m -> 0 < bval c m ->
  exists r, dmod c x m = Some r /\ big_wf c r /\ bval c r = bval c x mod bval c m.
Proof. intros c x m Hok Hx Hm Hp. exact (dmod_spec c Hok x m Hx Hm Hp). Qed.
Print Assumptions C07_dmod.
Theorem C07_div : forall c x m, cfg_ok c -> big_wf c x -> big_wf c m -> 0 < bval c m ->
  exists r, div c x m = Some r /\ big_wf c r /\ bval c r = bval c x / bval c m.
Proof. intros c x m Hok Hx Hm Hp. exact (div_spec c Hok x m Hx Hm Hp). Qed.
Print Assumptions C07_div.
(** the quotient must fit a Big *)
Theorem C07_ddiv : forall c x m, cfg_ok c -> dbig_wf c x -> big_wf c m -> 0 < bval c m -> bval c x < bval c m * bmax c ->
  exists r, ddiv c x m = Some r /\ big_wf c r /\ bval c r = bval c x / bval c m.
Proof. intros c x m Hok Hx Hm Hp Hq. exact (ddiv_spec c Hok x m Hx Hm Hp Hq). Qed.
Print Assumptions C07_ddiv.
Definition small_cfg := mkcfg 32 28 8.   (* 3 limbs; used for computed witnesses *)
Example C07_witness : cfg_ok small_cfg /\ rmod small_cfg [5; 9; 1] [0x7654321; 0; 0] = Some [0x7c7499; 0; 0]
   /\ (5 + 9 * 2 ^ 28 + 2 ^ 56) mod 0x7654321 = 0x7c7499
   /\ rmod small_cfg [5; 9; 1] [0; 0; 0] = None.
Proof. repeat split; vm_compute; reflexivity. Qed.

(** ** C08 *)
Theorem C08_modmul : forall c a b m, cfg_ok c -> big_wf c a -> big_wf c b -> big_wf c m -> 0 < bval c m ->
  exists r, modmul c a b m = Some r /\ big_wf c r /\ bval c r = (bval c a * bval c b) mod bval c m.
Proof. intros c a b m Hok Ha Hb Hm Hp. exact (modmul_spec c Hok a b m Ha Hb Hm Hp). Qed.
Print Assumptions C08_modmul.
Theorem C08_modsqr : forall c a m, cfg_ok c -> big_wf c a -> big_wf c m -> 0 < bval c m ->
  exists r, modsqr c a m = Some r /\ big_wf c r /\ bval c r = (bval c a * bval c a) mod bval c m.
Proof. intros c a m Hok Ha Hm Hp. exact (modsqr_spec c Hok a m Ha Hm Hp). Qed.
Print Assumptions C08_modsqr.
(** modneg returns a representative in (0, m], not the canonical residue of -0 *)
Theorem C08_modneg : forall c a m, cfg_ok c -> big_wf c a -> big_wf c m -> 0 < bval c m ->
  exists r, modneg c a m = Some r /\ length r = NLEN c /\ 0 < bval c r <= bval c m /\ bval c r mod bval c m = (- bval c a) mod bval c m.
Proof.
  intros c a m Hok Ha Hm Hp. destruct (modneg_spec c Hok a m Ha Hm Hp) as [r [R1 [R2 R3]]]. exists r. split; [exact R1|]. split; [exact R2|].
  unfold bval in *. pose proof (Z.mod_pos_bound (val (BASEBITS c) a) (val (BASEBITS c) m) Hp). split; [lia|]. rewrite R3.
  rewrite Zminus_mod_idemp_r, <- Zminus_mod_idemp_l, Z_mod_same_full, Z.sub_0_l. reflexivity.
Qed.
Print Assumptions C08_modneg.
Theorem C08_powmod : forall c x e m, cfg_ok c -> big_wf c x -> big_wf c e -> big_wf c m -> 1 < bval c m ->
  exists r, powmod c x e m = Some r /\ big_wf c r /\ bval c r = (bval c x ^ bval c e) mod bval c m.
Proof. intros c x e m Hok Hx He Hm Hp. exact (powmod_spec c Hok x e m Hx He Hm Hp). Qed.
Print Assumptions C08_powmod.
(** the modulus 1 is not reduced by: x^0 mod 1 comes out as 1 *)
Theorem C08_powmod_modulus_one_refuted : exists c x e m r, cfg_ok c /\ big_wf c x /\ big_wf c e /\ big_wf c m /\ bval c m = 1 /\
  powmod c x e m = Some r /\ bval c r <> (bval c x ^ bval c e) mod bval c m.
Proof.
  exists small_cfg, [3; 0; 0], [0; 0; 0], [1; 0; 0], [1; 0; 0].
  repeat (split; [first [reflexivity | (split; [reflexivity|repeat constructor; lia])]|]). vm_compute. discriminate.
Qed.
Print Assumptions C08_powmod_modulus_one_refuted.
Example C08_witness : powmod small_cfg [3; 0; 0] [100; 0; 0] [1009; 0; 0] = Some [Z.modulo (3 ^ 100) 1009; 0; 0].
Proof. vm_compute. reflexivity. Qed.

(** ** C09 *)
Theorem C09_invmodp : forall c x p, cfg_ok c -> big_wf c x -> big_wf c p -> 1 < bval c p -> Z.odd (bval c p) = true ->
  Z.gcd (bval c x) (bval c p) = 1 ->
  exists r, invmodp c x p = Some r /\ big_wf c r /\ bval c r < bval c p /\ (bval c r * bval c x) mod bval c p = 1.
Proof.
  intros c x p Hok Hx Hp H1 Ho Hg. apply (invmodp_spec c Hok x p Hx Hp H1); [|exact Hg].
  change (val (BASEBITS c) p) with (bval c p). rewrite Zmod_odd, Ho. reflexivity.
Qed.
Print Assumptions C09_invmodp.
(** a multiple of p is halved for ever: invmodp does not return *)
Theorem C09_invmodp_zero_diverges : forall c x p, cfg_ok c -> big_wf c x -> big_wf c p -> 1 < bval c p -> bval c x mod bval c p = 0 ->
  invmodp c x p = None /\ forall fuel u y, big_wf c u -> bval c u = 0 -> inv_even fuel c p u y = None.
Proof.
  intros c x p Hok Hx Hp H1 H0. split; [exact (invmodp_zero c Hok x p Hx Hp H1 H0)|].
  intros fuel u y Hu Hz. exact (inv_even_zero c Hok p fuel u y Hu Hz).
Qed.
Print Assumptions C09_invmodp_zero_diverges.
Example C09_witness : invmodp small_cfg [7; 0; 0] [1001 * 2 + 1; 0; 0] = Some [1717; 0; 0] /\ (1717 * 7) mod 2003 = 1.
Proof. split; vm_compute; reflexivity. Qed.

(** ** C11 *)
Theorem C11_invmod256 : forall a, Z.odd a = true -> (invmod256 a * a) mod 256 = 1.
Proof. intros a Ho. apply invmod256_spec. rewrite Zmod_odd, Ho. reflexivity. Qed.
Print Assumptions C11_invmod256.
(** every shipped configuration meets the two size conditions; the result may exceed 2^(8*MODBYTES), see below *)
Theorem C11_invmod2m : forall c x, cfg_ok c -> big_wf c x -> Z.odd (bval c x) = true ->
  MODBYTES c < 65536 -> 8 * MODBYTES c < BASEBITS c * Z.of_nat (NLEN c) ->
  exists r, invmod2m c x = Some r /\ big_wf c r /\ bval c r < 2 * 2 ^ (8 * MODBYTES c) /\ (bval c r * bval c x) mod 2 ^ (8 * MODBYTES c) = 1.
Proof.
  intros c x Hok Hx Ho H6 Hc. destruct (invmod2m_spec c Hok x Hx) as [r [R1 [R2 [R3 R4]]]]; try assumption.
  - change (val (BASEBITS c) x) with (bval c x). rewrite Zmod_odd, Ho. reflexivity.
  - exists r. auto.
Qed.
Print Assumptions C11_invmod2m.
(** ... so "the inverse, reduced modulo 2^(8*MODBYTES)" is false: invmod2m of 1 is 2^1024 + 1 for RSA-2048 *)
Theorem C11_invmod2m_reduced_refuted : exists r, invmod2m cfg_rsa2048_64 (1 :: repeat 0 17) = Some r /\ bval cfg_rsa2048_64 r = 2 ^ 1024 + 1.
Proof. eexists. split; vm_compute; reflexivity. Qed.
Print Assumptions C11_invmod2m_reduced_refuted.
Example C11_sizes : forallb (fun c => (MODBYTES c <? 65536) && (8 * MODBYTES c <? BASEBITS c * Z.of_nat (NLEN c))) all_cfgs = true.
Proof. vm_compute. reflexivity. Qed.
Example C11_witness : MODBYTES cfg_rsa2048_64 = 2 ^ 7 /\ 8 * MODBYTES cfg_rsa2048_64 < BASEBITS cfg_rsa2048_64 * Z.of_nat (NLEN cfg_rsa2048_64)
  /\ invmod2m small_cfg [3; 0; 0] = Some [0xaaaaaab; 0xaaaaaaa; 0xaa] /\ (3 * (0xaaaaaab + 2 ^ 28 * 0xaaaaaaa + 2 ^ 56 * 0xaa)) mod 2 ^ 64 = 1.
Proof. repeat split; vm_compute; reflexivity. Qed.

(** ** C12: R = 2^(BASEBITS*NLEN) *)
Theorem C12_monty : forall c m d mc, cfg_ok c -> big_wf c m -> dbig_wf c d -> 0 < bval c m ->
  (get m 0 * mc + 1) mod 2 ^ BASEBITS c = 0 -> bval c d < bval c m * bmax c -> 2 * bval c m < bmax c ->
  exists r, monty c m mc d = Some r /\ big_wf c r /\ bval c r < 2 * bval c m /\ (bval c r * bmax c) mod bval c m = bval c d mod bval c m.
Proof.
  intros c m d mc Hok Hm Hd Hp Hmc Hlt H2. unfold bval, bmax in *.
  set (R := 2 ^ (BASEBITS c * Z.of_nat (NLEN c))) in *. set (M := val (BASEBITS c) m) in *. set (D := val (BASEBITS c) d) in *.
  destruct (monty_spec c Hok m d mc Hm Hd Hmc) as [r [q [R1 [R2 [R3 R4]]]]].
  { fold R M D. assert (2 * M * R <= R * R) by (apply Z.mul_le_mono_nonneg_r; lia). lia. }
  fold R M D in R3, R4. exists r. split; [exact R1|]. split; [exact R2|]. split.
  - assert (q * M <= R * M) by (apply Z.mul_le_mono_nonneg_r; lia).
    apply (Z.mul_lt_mono_pos_r R); lia.
  - rewrite R4. apply Z.mod_add. lia.
Qed.
Print Assumptions C12_monty.
(** exact form: the result is (d + q*m)/R with q = -d/m mod R *)
Theorem C12_monty_exact : forall c m d mc, cfg_ok c -> big_wf c m -> dbig_wf c d ->
  (get m 0 * mc + 1) mod 2 ^ BASEBITS c = 0 -> bval c d + (bmax c - 1) * bval c m < bmax c * bmax c ->
  exists r q, monty c m mc d = Some r /\ big_wf c r /\ 0 <= q < bmax c /\ bval c r * bmax c = bval c d + q * bval c m.
Proof. intros c m d mc Hok Hm Hd Hmc Hlt. exact (monty_spec c Hok m d mc Hm Hd Hmc Hlt). Qed.
Print Assumptions C12_monty_exact.

(** ** C17: strings are lists of hex digit values, most significant first *)
Theorem C17_tostring : forall c w, cfg_ok c -> big_wf c w -> bval c w < 2 ^ (8 * MODBYTES c) ->
  exists ds, tostring_digits c w = Some ds /\ Z.of_nat (length ds) = 2 * MODBYTES c /\ Forall is_hex ds /\ hexval ds = bval c w.
Proof. intros c w Hok Hw Hv. exact (tostring_spec c Hok w Hw Hv). Qed.
Print Assumptions C17_tostring.
Theorem C17_fromstring : forall c ds, cfg_ok c -> Forall is_hex ds -> ds <> [] -> 4 * Z.of_nat (length ds) <= BASEBITS c * Z.of_nat (NLEN c) ->
  exists r, fromhex_digits c ds = Some r /\ big_wf c r /\ bval c r = hexval ds.
Proof. intros c ds Hok Hd Hne Hl. apply (fromhex_spec c Hok ds Hd Hne). lia. Qed.
Print Assumptions C17_fromstring.
Theorem C17_round_trip : forall c w, cfg_ok c -> big_wf c w -> bval c w < 2 ^ (8 * MODBYTES c) ->
  exists ds, tostring_digits c w = Some ds /\ fromhex_digits c ds = Some w.
Proof.
  intros c w Hok Hw Hv. pose proof (cfg_ok_facts c Hok) as F. pose proof (cf_B c F). pose proof (cf_M c F). pose proof (cf_cap c F).
  destruct (tostring_spec c Hok w Hw Hv) as [ds [D1 [D2 [D3 D4]]]]. exists ds. split; [exact D1|].
  destruct (fromhex_spec c Hok ds D3) as [r [R1 [R2 R3]]].
  - intros E. rewrite E in D2. cbn [length] in D2. clear -D2 H0. lia.
  - lia.
  - rewrite R1. f_equal. apply (C03_unique c r w Hok R2 Hw). unfold bval. congruence.
Qed.
Print Assumptions C17_round_trip.
Example C17_witness : tostring_digits small_cfg [0xabcdef; 0; 0] = Some (repeat 0 10 ++ [10; 11; 12; 13; 14; 15]).
Proof. vm_compute. reflexivity. Qed.

(** ** C18 *)
Definition bit_length (x : Z) : Z := if x =? 0 then 0 else Z.log2 x + 1.
Lemma bit_length_spec x : 0 <= x -> 0 <= bit_length x /\ x < 2 ^ bit_length x /\ (x <> 0 -> 2 ^ (bit_length x - 1) <= x).
Proof.
  intros H. unfold bit_length. destruct (Z.eqb_spec x 0) as [->|E]; [cbn; lia|].
  pose proof (Z.log2_spec x ltac:(lia)) as S. pose proof (Z.log2_nonneg x). rewrite <- Z.add_1_r in S.
  replace (Z.log2 x + 1 - 1) with (Z.log2 x) by lia. lia.
Qed.
Theorem C18_nbits : forall c w, cfg_ok c -> big_wf c w -> nbits c w = Some (bit_length (bval c w)).
Proof. intros c w Hok Hw. exact (nbits_spec c Hok w w (norm_wf c Hok w Hw) (proj2 Hw)). Qed.
Print Assumptions C18_nbits.
(** also for a double-length number *)
Theorem C18_dnbits : forall c w, cfg_ok c -> dbig_wf c w -> nbits c w = Some (bit_length (bval c w)).
Proof.
  intros c w Hok Hw. pose proof (cfg_ok_facts c Hok) as F. pose proof (cf_B c F).
  exact (nbits_spec c Hok w w (norm_canon_id c ltac:(lia) (cf_C c F) w (proj2 Hw)) (proj2 Hw)).
Qed.
Print Assumptions C18_dnbits.
Example C18_witness : nbits small_cfg [0; 0; 5] = Some 59 /\ bit_length (5 * 2 ^ 56) = 59.
Proof. split; vm_compute; reflexivity. Qed.

(** ** C49 (limb level) *)
Theorem C49_cmove : forall c a g d, cfg_ok c -> length a = length g -> d = 0 \/ d = 1 ->
  cmove c a g d = Some (if d =? 1 then g else a).
Proof. intros c a g d Hok Hl Hd. exact (cmove_spec c Hok a g d Hl Hd). Qed.
Print Assumptions C49_cmove.
Theorem C49_cswap : forall c a b d, cfg_ok c -> length a = length b -> d = 0 \/ d = 1 ->
  cswap c a b d = Some (if d =? 1 then (b, a) else (a, b)).
Proof. intros c a b d Hok Hl Hd. exact (cswap_spec c Hok a b d Hl Hd). Qed.
Print Assumptions C49_cswap.
Example C49_witness : cmove small_cfg [1; -2; 3] [-4; 5; 6] 1 = Some [-4; 5; 6] /\ cswap small_cfg [1; -2; 3] [-4; 5; 6] 0 = Some ([1; -2; 3], [-4; 5; 6]).
Proof. split; reflexivity. Qed.
