(** Field layer: facts about a ROM, graded limbs, the three reduction methods. *)
From Verif Require Import Base.Word Model.Big Model.Roms Model.Fp Spec.BigSpec Spec.RomSpec Spec.FpSpec Spec.Bytes
  Proof.BigVal Proof.BigShift Proof.BigBytes Proof.BigMul Proof.BigSqr Proof.BigMonty Proof.BigMod Proof.BigInv Proof.BigMisc Proof.NumTheory.
From Coq Require Import Psatz Zpow_facts Znumtheory.

Lemma last_get w n : length w = n -> (1 <= n)%nat -> get w (n - 1) = last w 0.
Proof.
  intros <- H. unfold get. destruct w as [|x w]; [cbn in H; lia|]. clear H.
  replace (length (x :: w) - 1)%nat with (length w) by (cbn; lia).
  revert x. induction w as [|y w IH]; intros x; [reflexivity|]. exact (IH y).
Qed.
Lemma set_limb_length w i v : (i < length w)%nat -> length (set_limb w i v) = length w.
Proof. intros H. unfold set_limb. rewrite app_length, firstn_length_le by lia. cbn [length]. rewrite skipn_length. lia. Qed.
Lemma set_limb_val B w i v : 0 <= B -> (i < length w)%nat -> val B (set_limb w i v) = val B w + (v - get w i) * 2 ^ (B * Z.of_nat i).
Proof.
  intros HB H. unfold set_limb. rewrite val_app by exact HB. rewrite firstn_length_le by lia. cbn [val].
  assert (E : w = firstn i w ++ get w i :: skipn (S i) w).
  { rewrite <- (firstn_skipn i w) at 1. f_equal. unfold get. clear HB v. revert i H. induction w as [|x w IH]; intros i H; [cbn in H; lia|].
    destruct i; [reflexivity|]. cbn [skipn nth]. apply IH. cbn in H. lia. }
  rewrite E at 3. rewrite val_app by exact HB. rewrite firstn_length_le by lia. cbn [val]. ring.
Qed.
Lemma Forall_fs {A} (P : A -> Prop) n l : Forall P l -> Forall P (firstn n l) /\ Forall P (skipn n l).
Proof. intros H. rewrite <- (firstn_skipn n l) in H. apply Forall_app in H. exact H. Qed.
Lemma set_limb_within lo hi w i v : within lo hi w -> lo <= v <= hi -> within lo hi (set_limb w i v).
Proof.
  intros H Hv. unfold set_limb. apply Forall_app. split; [exact (proj1 (Forall_fs _ i w H))|]. constructor; [exact Hv|exact (proj2 (Forall_fs _ (S i) w H))].
Qed.
Lemma set_limb_get w i v : (i < length w)%nat -> get (set_limb w i v) i = v.
Proof.
  intros H. unfold set_limb, get. rewrite app_nth2; rewrite firstn_length_le by lia; [|lia]. rewrite Nat.sub_diag. reflexivity.
Qed.

Lemma set_top_nrm B w n v : length w = n -> (1 <= n)%nat -> nrm B w -> nrm B (set_limb w (n - 1) v).
Proof.
  intros Hl Hn Hw. unfold set_limb. rewrite skipn_all2 by lia.
  destruct (exists_last (l := w)) as [l [y Ey]]. { intros E. rewrite E in Hl. cbn in Hl. lia. }
  subst w. rewrite app_length in Hl. cbn [length] in Hl. replace (n - 1)%nat with (length l) by lia. rewrite firstn_app, Nat.sub_diag, firstn_all.
  cbn [firstn]. rewrite app_nil_r. clear Hl Hn. induction l as [|z l IH]; [exact I|]. cbn [app] in *.
  destruct l as [|z' l]; [destruct Hw; split; [assumption|exact I]|]. cbn [app] in *. destruct Hw as [N3a N3b]. split; [exact N3a|]. apply IH. exact N3b.
Qed.

Section Cfg.
Variable c : cfg.
Hypothesis Hok : cfg_ok c.
Notation B := (BASEBITS c).
Notation C := (CHUNK c).
Notation N := (NLEN c).
Notation X := (2 ^ BASEBITS c).
Let F := cfg_ok_facts c Hok.
Let HB16 : 16 <= B. Proof. exact (cf_B c F). Qed.
Let HC : B + 3 <= C. Proof. exact (cf_C c F). Qed.
Let HX : 65536 <= X.
Proof. change 65536 with (2 ^ 16). apply pow2_le. lia. Qed.

(** norm on graded limbs *)
Lemma norm_loop_graded g w : 1 <= g -> g * X <= 2 ^ (C - 1) -> forall cc, - (g - 1) <= cc <= g - 1 ->
  within (- ((g - 1) * (X - 1))) (g * (X - 1)) w -> exists r, norm_loop c w cc = Some r.
Proof.
  intros Hg HgX. induction w as [|x t IH]; intros cc Hc Hw; [eexists; reflexivity|].
  apply Forall_cons_iff in Hw. destruct Hw as [Hx Ht].
  assert (R : - ((g - 1) * X) <= x + cc <= g * X - 1) by lia.
  assert (Rc : - 2 ^ (C - 1) <= x + cc < 2 ^ (C - 1)) by lia.
  destruct t as [|y t].
  - cbn [norm_loop]. rewrite chk_ok by exact Rc. eexists; reflexivity.
  - change (norm_loop c (x :: y :: t) cc) with (d <- chk C (x + cc) ;; r <- norm_loop c (y :: t) (Z.shiftr d B) ;; Some (Z.land d (BMASK c) :: r)).
    rewrite chk_ok by exact Rc. cbn [bind]. rewrite Z.shiftr_div_pow2 by lia.
    destruct (IH ((x + cc) / X)) as [r Hr]; [|exact Ht|rewrite Hr; eexists; reflexivity].
    split; [apply Z.div_le_lower_bound; lia|]. assert ((x + cc) / X < g) by (apply Z.div_lt_upper_bound; lia). lia.
Qed.
Lemma norm_graded g w : 1 <= g -> g * X <= 2 ^ (C - 1) -> within (- ((g - 1) * (X - 1))) (g * (X - 1)) w ->
  exists r, norm c w = Some r /\ val B r = val B w /\ nrm B r /\ length r = length w.
Proof.
  intros Hg HgX Hw. destruct (norm_loop_graded g w Hg HgX 0 ltac:(lia) Hw) as [r Hr]. exists r. split; [exact Hr|].
  apply (norm_val c ltac:(lia)). exact Hr.
Qed.
Lemma norm_to_wf g w : 1 <= g -> g * X <= 2 ^ (C - 1) -> length w = N -> within (- ((g - 1) * (X - 1))) (g * (X - 1)) w ->
  0 <= val B w < bmax c -> exists r, norm c w = Some r /\ val B r = val B w /\ big_wf c r.
Proof.
  intros Hg HgX Hl Hw Hv. destruct (norm_graded g w Hg HgX Hw) as [r [R1 [R2 [R3 R4]]]]. exists r. split; [exact R1|]. split; [exact R2|].
  split; [lia|]. apply (nrm_canon B r N); [lia|exact R3|lia|]. rewrite R2. exact Hv.
Qed.
End Cfg.

(** facts extracted from fp_ok *)
Record ffacts (r : rom) : Prop := {
  ff_ok : cfg_ok (r_cfg r);
  ff_wf : big_wf (r_cfg r) (r_MODULUS r);
  ff_odd : Z.odd (pmod r) = true;
  ff_lo : 2 ^ (r_MODBITS r - 1) <= pmod r;
  ff_hi : pmod r < 2 ^ r_MODBITS r;
  ff_T1 : 1 <= TBITS r;
  ff_TS : TBITS r + r_SH r <= BASEBITS (r_cfg r);
  ff_S5 : 5 <= r_SH r <= 28;
  ff_MB : r_MODBITS r = BASEBITS (r_cfg r) * (Z.of_nat (NLEN (r_cfg r)) - 1) + TBITS r;
  ff_hb : 2 * (CHUNK (r_cfg r) / 2) = CHUNK (r_cfg r);
  ff_S2 : r_SH r + 2 <= CHUNK (r_cfg r) / 2;
  ff_hT : CHUNK (r_cfg r) / 2 - TBITS r <= BASEBITS (r_cfg r);
  ff_200 : 200 <= r_MODBITS r;
  ff_hB : CHUNK (r_cfg r) / 2 < BASEBITS (r_cfg r);
  ff_C64 : CHUNK (r_cfg r) <= 64;
  ff_red : rom_red r;
  ff_R2wf : big_wf (r_cfg r) (r_R2MODP r);
  ff_R2lt : bval (r_cfg r) (r_R2MODP r) < pmod r;
  ff_mod8 : rom_mod8_weak r }.
Lemma fp_ok_facts r : fp_ok r -> ffacts r.
Proof.
  intros [[[A1 [A2 [A3 A4]]] [[B1 [B2 B3]] [H3 [_ [_ [_ [[_ [_ [_ [D4 _]]]] H8]]]]]]] E].
  unfold fp_okb in E. rewrite !andb_true_iff in E. destruct E as [[[[[[[[[[[E1 E2] E3] E4] E5] E6] E7] E8] E9] E10] E11] _].
  apply Z.leb_le in E1, E2, E3, E4, E7, E8, E9, E11. apply Z.eqb_eq in E5, E6. apply Z.ltb_lt in E10.
  constructor; try assumption; try lia; unfold pmod; try exact D4; destruct B2; assumption.
Qed.

Section Fp.
Variable r : rom.
Hypothesis Hf : fp_ok r.
Notation c := (r_cfg r).
Notation B := (BASEBITS (r_cfg r)).
Notation C := (CHUNK (r_cfg r)).
Notation N := (NLEN (r_cfg r)).
Notation X := (2 ^ BASEBITS (r_cfg r)).
Notation V := (val (BASEBITS (r_cfg r))).
Notation p := (pmod r).
Notation R := (bmax (r_cfg r)).
Let FF := fp_ok_facts r Hf.
Let Hok : cfg_ok c. Proof. exact (ff_ok r FF). Qed.
Let F := cfg_ok_facts c Hok.
Let HB16 : 16 <= B. Proof. exact (cf_B c F). Qed.
Let HC : B + 3 <= C. Proof. exact (cf_C c F). Qed.
Let HN2 : (2 <= N)%nat. Proof. exact (cf_N c F). Qed.
Let HX : 65536 <= X.
Proof. change 65536 with (2 ^ 16). apply pow2_le. lia. Qed.
Let HXC : 4 * X <= 2 ^ (C - 1).
Proof. change 4 with (2 ^ 2). rewrite <- Z.pow_add_r by lia. apply pow2_le. lia. Qed.

Definition E0 : Z := 2 ^ (B * (Z.of_nat N - 1)).   (* weight of the top limb *)
Lemma E0_pos : 0 < E0.
Proof. apply pow2_pos. apply Z.mul_nonneg_nonneg; lia. Qed.
Lemma R_E0 : R = X * E0.
Proof. unfold bmax, E0. rewrite <- Z.pow_add_r; [f_equal; ring|lia|apply Z.mul_nonneg_nonneg; lia]. Qed.
Lemma MB_E0 : 2 ^ r_MODBITS r = 2 ^ TBITS r * E0.
Proof.
  pose proof (ff_T1 r FF). unfold E0. rewrite (ff_MB r FF). rewrite Z.pow_add_r; [ring|apply Z.mul_nonneg_nonneg; lia|lia].
Qed.
Lemma p_big : 2 ^ 199 <= p.
Proof. pose proof (ff_lo r FF). pose proof (ff_200 r FF). pose proof (pow2_le 199 (r_MODBITS r - 1) ltac:(lia)). lia. Qed.
Lemma p_pos : 0 < p.
Proof. pose proof p_big. assert (0 < 2 ^ 199) by (apply pow2_pos; lia). lia. Qed.
(** R >= 2^SH * 2^MODBITS > 2^SH * p *)
Lemma R_SH : 2 ^ r_SH r * 2 ^ r_MODBITS r <= R.
Proof.
  rewrite MB_E0, R_E0, Z.mul_assoc. pose proof E0_pos. apply Z.mul_le_mono_nonneg_r; [lia|].
  pose proof (ff_S5 r FF). pose proof (ff_T1 r FF). pose proof (ff_TS r FF). rewrite <- Z.pow_add_r by lia. apply pow2_le. lia.
Qed.
Lemma SH_pos : 32 <= 2 ^ r_SH r.
Proof. change 32 with (2 ^ 5). apply pow2_le. pose proof (ff_S5 r FF). lia. Qed.
Lemma SHp_lt : 2 ^ r_SH r * p < R.
Proof.
  pose proof R_SH. pose proof (ff_hi r FF). pose proof SH_pos.
  assert (2 ^ r_SH r * p < 2 ^ r_SH r * 2 ^ r_MODBITS r) by (apply Z.mul_lt_mono_pos_l; lia). lia.
Qed.
Lemma FEX : FEXCESS r = 2 ^ r_SH r - 1. Proof. reflexivity. Qed.
Lemma top_get w : length w = N -> get w (N - 1) = last w 0.
Proof. intros H. apply last_get; [exact H|lia]. Qed.
Lemma nrm_top w : length w = N -> nrm B w -> last w 0 = V w / E0.
Proof.
  intros Hl Hw. rewrite (nrm_last B w); [|lia|exact Hw|intros E; rewrite E in Hl; cbn in Hl; lia].
  rewrite Hl. unfold E0. do 3 f_equal. lia.
Qed.
Lemma graded_within g w : graded r g w <-> within (- ((g - 1) * (X - 1))) (g * (X - 1)) w.
Proof. reflexivity. Qed.
Lemma wf_graded w : big_wf c w -> graded r 1 w.
Proof. intros [_ H]. apply graded_within. replace (- ((1 - 1) * (X - 1))) with 0 by lia. rewrite Z.mul_1_l. apply canon_within; exact H. Qed.
Lemma graded_wf w : length w = N -> graded r 1 w -> big_wf c w.
Proof.
  intros Hl H. split; [exact Hl|]. eapply Forall_impl; [|exact H]. cbv beta. intros. lia.
Qed.
Lemma modulus_range : 0 <= V (r_MODULUS r) < R.
Proof. apply (wf_range c Hok N). exact (ff_wf r FF). Qed.

(** a product of two moduli-sized numbers with excess below 2^SH *)
Lemma gcd_K : Z.gcd (fK r) p = 1.
Proof.
  unfold fK. destruct (special r); [apply Z.gcd_1_l|]. apply gcd_pow2_odd; [apply Z.mul_nonneg_nonneg; lia|exact (ff_odd r FF)].
Qed.

(** ** pseudo-Mersenne reduction *)
Lemma modulo_pm d : r_MODTYPE r = PseudoMersenne -> dbig_wf c d -> V d < 2 ^ r_SH r * p * p ->
  exists x, fp_modulo r d = Some x /\ big_wf c x /\ V x < 2 * p /\ V x mod p = V d mod p.
Proof.
  intros Ht Hd Hlt. pose proof (ff_red r FF) as Hred. unfold rom_red in Hred. rewrite Ht in Hred. fold (pmod r) in Hred.
  destruct Hred as [Ep [Hm1 Hm2]]. set (M := r_MCONST r) in *. set (P2 := 2 ^ r_MODBITS r) in *. set (S := 2 ^ r_SH r) in *.
  assert (Hcond : M * M * S + X + 2 ^ 8 <= 2 ^ (C - 1)).
  { pose proof (proj2 Hf) as E. unfold fp_okb in E. rewrite Ht in E. rewrite !andb_true_iff in E. destruct E as [_ E]. apply Z.leb_le in E. exact E. }
  pose proof p_pos as Hp. pose proof p_big as Hpb. pose proof SH_pos as HS. fold S in HS. pose proof R_SH as HRS. fold S P2 in HRS.
  pose proof (ff_T1 r FF) as HT1. pose proof (ff_TS r FF) as HTS. pose proof (ff_S5 r FF) as HS5. pose proof E0_pos as HE0. pose proof R_E0 as ER. pose proof MB_E0 as EM. fold P2 in EM.
  assert (HP2 : p < P2) by lia.
  pose proof (wf_range c Hok (DNLEN c) d Hd) as [Hd0 _].
  set (D := V d) in *.
  assert (Ht0 : 0 <= D / P2) by (apply Z.div_pos; lia).
  assert (HtS : D / P2 < S * p).
  { apply Z.div_lt_upper_bound; [lia|]. assert (S * p * p <= P2 * (S * p)); [|lia].
    rewrite (Z.mul_comm P2). apply Z.mul_le_mono_nonneg_l; [apply Z.mul_nonneg_nonneg; lia|lia]. }
  assert (HSpR : S * p < R) by (apply SHp_lt).
  unfold fp_modulo. rewrite Ht.
  destruct (split_spec c Hok d (r_MODBITS r) Hd) as [t [lo [Hsp [Wt [Vt [Wb Vb]]]]]].
  { rewrite (ff_MB r FF). lia. }
  { fold P2 D. lia. }
  rewrite Hsp. fold P2 D in Vt, Vb.
  destruct (pmul_spec c Hok t M Wt ltac:(lia)) as [v [t1 [Hpm [Wt1 [Hv Vt1]]]]]. fold M. rewrite Hpm. cbn [bind fst snd].
  rewrite Vt in Vt1.
  pose proof (wf_range c Hok N t1 Wt1) as Rt1. fold (bmax c) in Rt1. change (cap c N) with R in Rt1.
  pose proof (Z.mod_pos_bound D P2 ltac:(lia)) as Rb.
  assert (HP2R : P2 <= R). { assert (1 * P2 <= S * P2) by (apply Z.mul_le_mono_nonneg_r; lia). lia. }
  destruct (add_total c ltac:(lia) HC 0 (X - 1) 0 (X - 1) t1 (big_dcopy c lo)) as [t2 [A1 A2]].
  { apply canon_within; exact (proj2 Wt1). } { apply canon_within; exact (proj2 Wb). }
  { rewrite (proj1 Wt1), (proj1 Wb). reflexivity. } { lia. } { lia. }
  rewrite A1. cbn [bind].
  destruct (add_val c t1 _ t2 A1) as [V2 L2]. { rewrite (proj1 Wt1), (proj1 Wb). reflexivity. }
  rewrite Vb in V2. rewrite (proj1 Wt1) in L2.
  destruct (norm_graded c Hok 2 t2) as [t3 [N1 [N2 [N3 N4]]]]; [lia|lia|eapply within_weaken; [exact A2|lia|lia]|].
  rewrite N1. cbn [bind]. rewrite V2 in N2. rewrite L2 in N4.
  rewrite (top_get t3 N4), (nrm_top t3 N4 N3).
  set (Q := V t3) in *.
  assert (RQ : 0 <= Q < 2 * R) by lia.
  unfold TMASK. rewrite land_mask by lia. rewrite Z.shiftr_div_pow2 by lia. rewrite Z.div_div by lia.
  rewrite (Z.mul_comm E0), <- EM. rewrite Z.shiftl_mul_pow2 by lia.
  (* total folded value *)
  assert (ERP : R = P2 * 2 ^ (B - TBITS r)).
  { rewrite ER, EM. replace X with (2 ^ TBITS r * 2 ^ (B - TBITS r)) by (rewrite <- Z.pow_add_r by lia; f_equal; lia). ring. }
  assert (EF : Q + R * v = D / P2 * M + D mod P2) by lia.
  assert (EQ : Q / P2 + v * 2 ^ (B - TBITS r) = (D / P2 * M + D mod P2) / P2).
  { rewrite <- EF, ERP. replace (Q + P2 * 2 ^ (B - TBITS r) * v) with (Q + v * 2 ^ (B - TBITS r) * P2) by ring.
    rewrite Z.div_add by lia. reflexivity. }
  set (e := (D / P2 * M + D mod P2) / P2) in *.
  assert (He : 0 <= e <= M * S).
  { split; [apply Z.div_pos; [apply Z.add_nonneg_nonneg; [apply Z.mul_nonneg_nonneg; lia|lia]|lia]|].
    assert (e < M * S + 1); [|lia]. apply Z.div_lt_upper_bound; [lia|].
    assert (D / P2 * M <= S * p * M) by (apply Z.mul_le_mono_nonneg_r; lia).
    assert (S * p * M <= S * P2 * M). { apply Z.mul_le_mono_nonneg_r; [lia|]. apply Z.mul_le_mono_nonneg_l; lia. }
    lia. }
  assert (HQ0 : 0 <= Q / P2) by (apply Z.div_pos; lia).
  assert (Hv0 : 0 <= v * 2 ^ (B - TBITS r)) by (apply Z.mul_nonneg_nonneg; [lia|apply Z.lt_le_incl, pow2_pos; lia]).
  assert (HMS : M * S <= M * M * S). { replace (M * S) with (1 * (M * S)) by ring. rewrite <- Z.mul_assoc. apply Z.mul_le_mono_nonneg_r; [apply Z.mul_nonneg_nonneg; lia|lia]. }
  rewrite wrap_id by lia. rewrite chk_ok by lia. cbn [bind]. rewrite EQ.
  assert (HMe : 0 <= M * e <= M * M * S). { split; [apply Z.mul_nonneg_nonneg; lia|]. rewrite <- Z.mul_assoc. apply Z.mul_le_mono_nonneg_l; lia. }
  rewrite chk_ok by lia. cbn [bind].
  (* masked top limb *)
  set (tm := (Q / E0) mod 2 ^ TBITS r).
  assert (Htm : 0 <= tm < X). { pose proof (Z.mod_pos_bound (Q / E0) (2 ^ TBITS r) ltac:(apply pow2_pos; lia)). pose proof (pow2_le (TBITS r) B ltac:(lia)). unfold tm. lia. }
  assert (Vset : V (set_limb t3 (N - 1) tm) = Q mod P2).
  { rewrite set_limb_val by lia. rewrite (top_get t3 N4), (nrm_top t3 N4 N3). fold Q.
    replace (2 ^ (B * Z.of_nat (N - 1))) with E0 by (unfold E0; f_equal; f_equal; lia).
    unfold tm. rewrite EM, (Z.mul_comm (2 ^ TBITS r)). rewrite Z.rem_mul_r by (try apply pow2_pos; lia).
    pose proof (Z.div_mod Q E0 ltac:(lia)). lia. }
  assert (Wset : big_wf c (set_limb t3 (N - 1) tm)).
  { split; [rewrite set_limb_length; lia|]. 
    assert (Hn : nrm B (set_limb t3 (N - 1) tm)).
    { apply set_top_nrm; [lia|lia|exact N3]. }
    apply (nrm_canon B _ N); [lia|exact Hn|rewrite set_limb_length; lia|]. rewrite Vset.
    pose proof (Z.mod_pos_bound Q P2 ltac:(lia)). unfold bmax in HP2R. lia. }
  unfold add_limb.
  assert (Hg0 : 0 <= get (set_limb t3 (N - 1) tm) 0 < X) by (apply canon_get; [lia|exact (proj2 Wset)]).
  rewrite chk_ok by lia. cbn [bind].
  set (t5 := set_limb (set_limb t3 (N - 1) tm) 0 (get (set_limb t3 (N - 1) tm) 0 + M * e)).
  assert (V5 : V t5 = Q mod P2 + M * e).
  { unfold t5. rewrite set_limb_val; [|lia|rewrite (proj1 Wset); lia]. rewrite Vset. change (B * Z.of_nat 0) with (B * 0). rewrite Z.mul_0_r. change (2 ^ 0) with 1. ring. }
  assert (L5 : length t5 = N) by (unfold t5; rewrite set_limb_length; [exact (proj1 Wset)|rewrite (proj1 Wset); lia]).
  assert (S5 : small c t5).
  { apply (within_small c 0 (X - 1 + M * M * S)).
    - unfold t5. apply set_limb_within; [|lia]. eapply within_weaken; [apply canon_within; exact (proj2 Wset)|lia|].
      assert (0 <= M * M * S) by lia. lia.
    - unfold Mlim. pose proof (pow2_le (C - 1 - B) (C - 1) ltac:(lia)). lia.
    - unfold Mlim. assert (2 ^ (C - 1 - B) <= 2 ^ 8); [|lia]. apply pow2_le. pose proof (cf_C2 c F). lia. }
  destruct (norm_total c ltac:(lia) HC t5 S5) as [x [X1 [X2 [X3 X4]]]].
  pose proof (Z.mod_pos_bound Q P2 ltac:(lia)) as RQm.
  assert (Hsm : M + M * M * S < 2 ^ 199).
  { assert (2 ^ (C - 1) <= 2 ^ 100). { apply pow2_le. pose proof (ff_C64 r FF). lia. }
    assert (2 ^ 100 + 2 ^ 100 < 2 ^ 199) by reflexivity. lia. }
  assert (Hbound : V t5 < 2 * p) by lia.
  exists x. split; [exact X1|]. split.
  { split; [lia|]. apply (nrm_canon B x N); [lia|exact X3|lia|]. rewrite X2, V5. 
    assert (2 * p <= S * p) by (apply Z.mul_le_mono_nonneg_r; lia). unfold bmax in HSpR. lia. }
  split; [lia|].
  (* congruence *)
  rewrite X2, V5.
  assert (EP2 : P2 = M + 1 * p) by lia.
  pose proof (Z.div_mod Q P2 ltac:(lia)) as DQ. pose proof (Z.div_mod D P2 ltac:(lia)) as DD.
  apply mod_eq_divide; [exact Hp|].
  (* Q mod P2 + M e - D = ... multiple of P2 - M = p *)
  assert (Ee : e = Q / P2 + v * 2 ^ (B - TBITS r)) by lia.
  exists (- (D / P2) - e).
  replace p with (P2 - M) by lia.
  assert (EQm : Q mod P2 = D / P2 * M + D mod P2 - P2 * e).
  { rewrite Ee. assert (P2 * (v * 2 ^ (B - TBITS r)) = R * v) by (rewrite ERP; ring). lia. }
  lia.
Qed.

(** ** goldilocks reduction *)
Lemma val_within_le k w : 0 <= k -> within 0 (k * (X - 1)) w -> 0 <= V w <= k * (2 ^ (B * Z.of_nat (length w)) - 1).
Proof.
  intros Hk H. induction H as [|x t Hx Ht IH]; [cbn [val length]; change (Z.of_nat 0) with 0; rewrite Z.mul_0_r; lia|].
  cbn [val length]. rewrite Nat2Z.inj_succ. replace (B * Z.succ (Z.of_nat (length t))) with (B + B * Z.of_nat (length t)) by ring.
  rewrite Z.pow_add_r by (try apply Z.mul_nonneg_nonneg; lia).
  set (T := 2 ^ (B * Z.of_nat (length t))) in *. set (W := V t) in *.
  assert (X * W <= X * (k * (T - 1))) by (apply Z.mul_le_mono_nonneg_l; lia).
  assert (0 <= X * W) by (apply Z.mul_nonneg_nonneg; lia). lia.
Qed.
Lemma split_top w : length w = N -> exists l t, w = l ++ [t] /\ length l = (N - 1)%nat /\ t = get w (N - 1) /\ V w = V l + t * E0.
Proof.
  intros Hl. destruct (exists_last (l := w)) as [l [y Ey]]. { intros E. rewrite E in Hl. cbn in Hl. lia. }
  exists l, y. subst w. rewrite app_length in Hl. cbn [length] in Hl. assert (length l = N - 1)%nat by lia.
  split; [reflexivity|]. split; [assumption|]. split.
  - unfold get. rewrite app_nth2 by lia. replace (N - 1 - length l)%nat with 0%nat by lia. reflexivity.
  - rewrite val_app by lia. cbn [val]. unfold E0. replace (Z.of_nat (length l)) with (Z.of_nat N - 1) by lia. ring.
Qed.
Lemma add_wf a b ka kb : length a = N -> length b = N -> 0 <= ka -> 0 <= kb -> within 0 (ka * (X - 1)) a -> within 0 (kb * (X - 1)) b ->
  (ka + kb) * X <= 2 ^ (C - 1) ->
  exists s, add c a b = Some s /\ length s = N /\ V s = V a + V b /\ within 0 ((ka + kb) * (X - 1)) s.
Proof.
  intros La Lb Ha Hb Wa Wb H.
  assert (Hab : 0 <= ka * (X - 1)) by (apply Z.mul_nonneg_nonneg; lia). assert (Hbb : 0 <= kb * (X - 1)) by (apply Z.mul_nonneg_nonneg; lia).
  destruct (add_total c ltac:(lia) HC 0 (ka * (X - 1)) 0 (kb * (X - 1)) a b Wa Wb ltac:(lia) ltac:(lia)) as [s [S1 S2]].
  { destruct (Z.eq_dec (ka + kb) 0); [|lia]. assert (ka = 0) by lia. assert (kb = 0) by lia. subst. lia. }
  destruct (add_val c a b s S1 ltac:(lia)) as [S3 S4]. exists s. split; [exact S1|]. split; [lia|]. split; [exact S3|].
  eapply within_weaken; [exact S2|lia|lia].
Qed.
Lemma wf_within w : big_wf c w -> within 0 (1 * (X - 1)) w.
Proof. intros [_ H]. rewrite Z.mul_1_l. apply canon_within. exact H. Qed.

Lemma modulo_gm d : r_MODTYPE r = GeneralisedMersenne -> dbig_wf c d -> V d < MX r * p * p ->
  exists x, fp_modulo r d = Some x /\ big_wf c x /\ V x < 2 * p /\ V x mod p = V d mod p.
Proof.
  intros Ht Hd Hlt. pose proof (ff_red r FF) as Ep. unfold rom_red in Ep. rewrite Ht in Ep. fold (pmod r) in Ep.
  pose proof (proj2 Hf) as Hcond. unfold fp_okb in Hcond. rewrite Ht in Hcond. rewrite !andb_true_iff in Hcond.
  destruct Hcond as [_ [[[[G1 G2] G3] G4] G5]]. apply Z.eqb_eq in G1. apply Z.leb_le in G2, G3, G4. apply Z.ltb_lt in G5.
  assert (EMX : MX r <= (2 ^ (C - 1) - 2 * X) / 2 ^ (224 mod B) / 2 - 4) by (unfold MX; rewrite Ht; lia).
  set (mx := MX r) in *. clearbody mx. unfold FEXCESS in G3.
  assert (Hcarry : (2 * mx + 8) * 2 ^ (224 mod B) <= 2 ^ (C - 1) - 2 * X).
  { set (q := 2 ^ (224 mod B)) in *. assert (0 < q) by (apply pow2_pos; lia). set (A := 2 ^ (C - 1) - 2 * X) in *.
    pose proof (Z.mul_div_le (A / q) 2 ltac:(lia)). pose proof (Z.mul_div_le A q ltac:(lia)).
    assert (q * (2 * mx + 8) <= q * (A / q)) by (apply Z.mul_le_mono_nonneg_l; lia). lia. }
  clear EMX.
  pose proof p_pos as Hp. pose proof SH_pos as HS. pose proof R_SH as HRS. pose proof SHp_lt as HSpR. set (S := 2 ^ r_SH r) in *.
  pose proof (ff_T1 r FF) as HT1. pose proof (ff_TS r FF) as HTS. pose proof (ff_S5 r FF) as HS5. pose proof E0_pos as HE0. pose proof R_E0 as ER. pose proof MB_E0 as EM.
  pose proof (ff_MB r FF) as EMB. pose proof (ff_C64 r FF) as HC64.
  assert (HS28 : S <= 2 ^ 28) by (apply pow2_le; lia).
  set (P2 := 2 ^ r_MODBITS r) in *. rewrite G1 in Ep. change (448 / 2) with 224 in Ep.
  assert (EP2 : P2 = 2 ^ 448) by (unfold P2; rewrite G1; reflexivity).
  set (h := 2 ^ 224) in *. assert (Ehh : P2 = h * h) by (rewrite EP2; reflexivity). assert (Hh : 2 ^ 223 < h) by reflexivity.
  pose proof Ep as Eph. clear Ep.
  assert (HhP : 2 ^ 100 * h <= P2) by (rewrite Ehh; apply Z.mul_le_mono_nonneg_r; [lia|]; assert (2 ^ 100 <= 2 ^ 223) by (apply pow2_le; lia); lia).
  assert (Hh2 : 2 ^ 99 <= h) by (assert (2 ^ 99 <= 2 ^ 223) by (apply pow2_le; lia); lia).
  assert (Eh : 2 ^ 224 = h) by reflexivity. clearbody h.
  pose proof (wf_range c Hok (DNLEN c) d Hd) as [Hd0 _].
  set (D := V d) in *.
  assert (HP2p : 0 < P2) by lia.
  assert (Ht0 : 0 <= D / P2) by (apply Z.div_pos; lia).
  assert (HtS : D / P2 < mx * p).
  { apply Z.div_lt_upper_bound; [lia|]. assert (mx * p * p <= P2 * (mx * p)); [|lia].
    rewrite (Z.mul_comm P2). apply Z.mul_le_mono_nonneg_l; [apply Z.mul_nonneg_nonneg; lia|lia]. }
  assert (HmP : mx * p <= mx * P2) by (apply Z.mul_le_mono_nonneg_l; lia).
  assert (HmS : (2 * mx + 16) * P2 <= S * P2) by (apply Z.mul_le_mono_nonneg_r; lia).
  unfold fp_modulo. rewrite Ht.
  destruct (split_spec c Hok d (r_MODBITS r) Hd) as [t [lo0 [Hsp [Wt [Vt [Wb Vb]]]]]].
  { lia. } { fold P2 D. lia. }
  rewrite Hsp. fold P2 D in Vt, Vb. rewrite G1. change (448 / 2) with 224. rewrite <- G1.
  set (T := D / P2) in *. set (b0 := D mod P2) in *.
  pose proof (Z.mod_pos_bound D P2 ltac:(lia)) as Rb. fold b0 in Rb.
  destruct (add_wf (big_dcopy c lo0) t 1 1 (proj1 Wb) (proj1 Wt) ltac:(lia) ltac:(lia) (wf_within _ Wb) (wf_within _ Wt) ltac:(lia)) as [b1 [A1 [L1 [V1 W1]]]].
  rewrite A1. cbn [bind].
  destruct (scopy_spec c Hok t Wt) as [Wsc Vsc].
  assert (Hk0 : 0 <= 224 / B) by (apply Z.div_pos; lia).
  assert (Hk1 : 224 / B < Z.of_nat N - 1) by (apply Z.div_lt_upper_bound; lia).
  assert (HBN : B * Z.of_nat (DNLEN c) = 2 * (B * Z.of_nat N)) by (unfold DNLEN; lia).
  assert (HBN1 : B * Z.of_nat N = B * (Z.of_nat N - 1) + B) by ring.
  assert (HTh : T * h < 2 ^ (B * Z.of_nat (DNLEN c))).
  { assert (ERR : 2 ^ (B * Z.of_nat (DNLEN c)) = R * R) by (unfold bmax; rewrite HBN, <- Z.pow_add_r; [f_equal; lia|apply Z.mul_nonneg_nonneg; lia|apply Z.mul_nonneg_nonneg; lia]).
    rewrite ERR. assert (T * h <= R * h) by (apply Z.mul_le_mono_nonneg_r; lia). assert (R * h < R * R) by (apply Z.mul_lt_mono_pos_l; lia). lia. }
  destruct (shl_spec c ltac:(lia) HC (scopy c t) 224 ltac:(lia)) as [dd [S1 [S2 [S3 S4]]]].
  { exact (proj2 Wsc). } { rewrite (proj1 Wsc). unfold DNLEN. lia. } { rewrite (proj1 Wsc). lia. }
  { rewrite Vsc, Vt, (proj1 Wsc), Eh. exact HTh. }
  unfold dshl. replace ((Z.to_nat (224 / B) + 2 <=? length (scopy c t))%nat) with true.
  2:{ symmetry. apply Nat.leb_le. rewrite (proj1 Wsc). unfold DNLEN. lia. }
  rewrite S1. cbn [bind]. rewrite Vsc, Vt, Eh in S2.
  assert (Wdd : dbig_wf c dd). { split; [rewrite S4; exact (proj1 Wsc)|exact S3]. }
  assert (EThP : (T * h) / P2 = T / h). { rewrite Ehh. apply Z.div_mul_cancel_r; lia. }
  assert (HTh2 : T / h <= T). { apply Z.div_le_upper_bound; [lia|]. assert (1 * T <= h * T) by (apply Z.mul_le_mono_nonneg_r; lia). lia. }
  assert (HTh0 : 0 <= T / h) by (apply Z.div_pos; lia).
  destruct (split_spec c Hok dd (r_MODBITS r) Wdd) as [tt [lo1 [Hsp2 [Wtt [Vtt [Wlo Vlo]]]]]].
  { lia. } { fold P2. rewrite S2, EThP. lia. }
  rewrite Hsp2. fold P2 in Vtt, Vlo. rewrite S2 in Vtt, Vlo. rewrite EThP in Vtt.
  set (U := T / h) in *. set (lo := (T * h) mod P2) in *.
  pose proof (Z.mod_pos_bound (T * h) P2 ltac:(lia)) as Rlo. fold lo in Rlo.
  destruct (add_wf b1 tt 2 1 L1 (proj1 Wtt) ltac:(lia) ltac:(lia) W1 (wf_within _ Wtt) ltac:(lia)) as [b2 [A2 [L2 [V2 W2]]]].
  rewrite A2. cbn [bind].
  destruct (add_wf b2 (big_dcopy c lo1) 3 1 L2 (proj1 Wlo) ltac:(lia) ltac:(lia) W2 (wf_within _ Wlo) ltac:(lia)) as [b3 [A3 [L3 [V3 W3]]]].
  rewrite A3. cbn [bind].
  rewrite V2, V1, Vb, Vt, Vtt, Vlo in V3.
  assert (HUm : U <= mx * P2) by lia.
  destruct (norm_to_wf c Hok 4 b3 ltac:(lia) ltac:(lia) L3) as [b4 [N1 [N2 Wb4]]].
  { eapply within_weaken; [exact W3|lia|lia]. } { rewrite V3. lia. }
  rewrite N1. cbn [bind]. rewrite V3 in N2.
  assert (HUh : U * h <= T). { unfold U. rewrite Z.mul_comm. apply Z.mul_div_le. lia. }
  destruct (shl_spec c ltac:(lia) HC tt 224 ltac:(lia)) as [ts [Q1 [Q2 [Q3 Q4]]]].
  { exact (proj2 Wtt). } { rewrite (proj1 Wtt). lia. } { rewrite (proj1 Wtt). lia. }
  { rewrite Vtt, Eh, (proj1 Wtt). change (2 ^ (B * Z.of_nat N)) with R. lia. }
  rewrite Q1. cbn [bind]. rewrite Vtt, Eh in Q2. rewrite (proj1 Wtt) in Q4.
  assert (Wts : big_wf c ts) by (split; assumption).
  destruct (add_wf b4 ts 1 1 (proj1 Wb4) Q4 ltac:(lia) ltac:(lia) (wf_within _ Wb4) (wf_within _ Wts) ltac:(lia)) as [b5 [A5 [L5 [V5 W5]]]].
  rewrite A5. cbn [bind]. rewrite N2, Q2 in V5.
  set (W := V b5) in *.
  assert (HW : 0 <= W < (2 * mx + 3) * P2) by lia.
  destruct (split_top b5 L5) as [lw [top [Eb5 [Llw [Etop Vb5]]]]]. rewrite <- Etop. fold W in Vb5.
  assert (Wlw : within 0 (2 * (X - 1)) lw /\ 0 <= top <= 2 * (X - 1)).
  { rewrite Eb5 in W5. apply Forall_app in W5. destruct W5 as [W5a W5b]. apply Forall_cons_iff in W5b. destruct W5b as [W5b _]. split; [exact W5a|exact W5b]. }
  destruct Wlw as [Wlw Htop].
  pose proof (val_within_le 2 lw ltac:(lia) Wlw) as Rlw. rewrite Llw in Rlw.
  replace (2 ^ (B * Z.of_nat (N - 1))) with E0 in Rlw by (unfold E0; f_equal; f_equal; lia).
  rewrite Z.shiftr_div_pow2 by lia. unfold TMASK. rewrite land_mask by lia.
  set (cy := top / 2 ^ TBITS r). set (P := 2 ^ TBITS r) in *.
  assert (HP : 0 < P) by (apply pow2_pos; lia).
  assert (HPX : 2 * P <= 2 * X). { assert (P <= X) by (apply pow2_le; lia). lia. }
  assert (Hcy0 : 0 <= cy) by (apply Z.div_pos; lia).
  pose proof (Z.mod_pos_bound top P HP) as Rtm. pose proof (Z.div_mod top P ltac:(lia)) as Dtop. fold cy in Dtop.
  assert (Hcy : cy <= 2 * mx + 2).
  { assert (cy * P2 <= W).
    { rewrite EM. assert (cy * P * E0 <= top * E0) by (apply Z.mul_le_mono_nonneg_r; lia). lia. }
    assert (cy * P2 < (2 * mx + 3) * P2) by lia. apply Z.mul_lt_mono_pos_r in H0; lia. }
  set (q := 2 ^ (224 mod B)) in *.
  assert (Hq : 256 <= q). { change 256 with (2 ^ 8). apply pow2_le. lia. }
  assert (Hcq : cy * q <= (2 * mx + 2) * q) by (apply Z.mul_le_mono_nonneg_r; lia).
  assert (Hcq0 : cy <= cy * q). { replace cy with (cy * 1) at 1 by ring. apply Z.mul_le_mono_nonneg_l; lia. }
  set (b6 := set_limb b5 (N - 1) (top mod P)).
  assert (L6 : length b6 = N) by (unfold b6; rewrite set_limb_length; lia).
  assert (W6 : within 0 (2 * (X - 1)) b6) by (apply set_limb_within; [exact W5|lia]).
  assert (V6 : V b6 = W - cy * P2).
  { unfold b6. rewrite set_limb_val by lia. rewrite <- Etop. fold W. replace (2 ^ (B * Z.of_nat (N - 1))) with E0 by (unfold E0; f_equal; f_equal; lia).
    rewrite EM. replace (top mod P - top) with (- (cy * P)) by lia. ring. }
  assert (Hget : forall i, (i < N)%nat -> 0 <= get b6 i <= 2 * (X - 1)).
  { intros i Hi. unfold within in W6. rewrite Forall_forall in W6. apply W6. apply nth_In. lia. }
  set (mid := Z.to_nat (224 / B)).
  assert (Hmid : (0 < mid < N)%nat). { unfold mid. assert (1 <= 224 / B) by (apply Z.div_le_lower_bound; lia). lia. }
  unfold add_limb at 1. pose proof (Hget 0%nat ltac:(lia)) as G0. rewrite chk_ok by lia. cbn [bind].
  set (b7 := set_limb b6 0 (get b6 0 + cy)).
  assert (L7 : length b7 = N) by (unfold b7; rewrite set_limb_length; lia).
  assert (V7 : V b7 = V b6 + cy). { unfold b7. rewrite set_limb_val by lia. change (B * Z.of_nat 0) with (B * 0). rewrite Z.mul_0_r. change (2 ^ 0) with 1. ring. }
  assert (Eg7 : get b7 mid = get b6 mid).
  { unfold b7, set_limb. destruct b6 as [|z b6']; [cbn in L6; lia|]. destruct mid as [|mid']; [lia|]. reflexivity. }
  rewrite Z.shiftl_mul_pow2 by lia. fold q. rewrite wrap_id by lia.
  unfold add_limb. rewrite Eg7. pose proof (Hget mid ltac:(lia)) as Gm. rewrite chk_ok by lia. cbn [bind].
  set (b8 := set_limb b7 mid (get b6 mid + cy * q)).
  assert (L8 : length b8 = N) by (unfold b8; rewrite set_limb_length; lia).
  assert (V8 : V b8 = W - cy * p).
  { unfold b8. rewrite set_limb_val by lia. rewrite Eg7, V7, V6, Eph.
    assert (Eq2 : q * 2 ^ (B * Z.of_nat mid) = h).
    { unfold q, mid. rewrite Z2Nat.id by lia. rewrite <- Z.pow_add_r; [|lia|apply Z.mul_nonneg_nonneg; lia]. rewrite <- Eh. f_equal.
      pose proof (Z.div_mod 224 B ltac:(lia)). lia. }
    rewrite <- Eq2. ring. }
  assert (Sm : small c b8).
  { apply (within_small c 0 (2 * (X - 1) + (2 * mx + 2) * q)).
    - unfold b8. apply set_limb_within; [|lia]. unfold b7. apply set_limb_within; [|lia]. eapply within_weaken; [exact W6|lia|lia].
    - unfold Mlim. pose proof (pow2_le (C - 1 - B) (C - 1) ltac:(lia)). lia.
    - unfold Mlim. assert (2 ^ (C - 1 - B) <= 2 ^ 8); [|lia]. apply pow2_le. pose proof (cf_C2 c F). lia. }
  destruct (norm_total c ltac:(lia) HC b8 Sm) as [x [X1 [X2 [X3 X4]]]].
  assert (HPE : 2 * E0 <= P2). { rewrite EM. apply Z.mul_le_mono_nonneg_r; [lia|]. unfold P. change 2 with (2 ^ 1) at 1. apply pow2_le. lia. }
  assert (Hlow : W - cy * P2 = V lw + (top mod P) * E0). { rewrite EM. rewrite Vb5. rewrite Dtop at 1. ring. }
  assert (HtmE : (top mod P) * E0 <= (P - 1) * E0) by (apply Z.mul_le_mono_nonneg_r; lia).
  assert (HtmE0 : 0 <= (top mod P) * E0) by (apply Z.mul_nonneg_nonneg; lia).
  assert (Hcyh : cy * (h + 1) <= (2 * mx + 2) * (h + 1)) by (apply Z.mul_le_mono_nonneg_r; lia).
  assert (Hcyh0 : 0 <= cy * (h + 1)) by (apply Z.mul_nonneg_nonneg; lia).
  assert (Hmxh : (2 * mx + 5) * (h + 1) <= 2 ^ 30 * (h + 1)) by (apply Z.mul_le_mono_nonneg_r; lia).
  assert (E8 : V b8 = V lw + top mod P * E0 + cy * (h + 1)). { rewrite V8, Eph. lia. }
  assert (Hb8 : 0 <= V b8 < 2 * p) by lia.
  exists x. split; [exact X1|]. split.
  { split; [lia|]. apply (nrm_canon B x N); [lia|exact X3|lia|]. rewrite X2. change (2 ^ (B * Z.of_nat N)) with R.
    assert (2 * p <= S * p) by (apply Z.mul_le_mono_nonneg_r; lia). lia. }
  split; [lia|]. rewrite X2, V8.
  apply mod_eq_divide; [exact Hp|].
  pose proof (Z.div_mod (T * h) P2 ltac:(lia)) as DTh. rewrite EThP in DTh. fold U lo in DTh.
  pose proof (Z.div_mod D P2 ltac:(lia)) as DD. fold T b0 in DD.
  exists (- cy - T - U). rewrite V5, DD.
  replace lo with (T * h - P2 * U) by lia. rewrite Eph. ring.
Qed.
End Fp.
