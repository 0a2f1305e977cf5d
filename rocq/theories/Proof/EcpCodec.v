(** Construction of points from coordinates and from bytes, and back (ecp.rs new_bigs, new_bigint, tobytes, frombytes). *)
From Verif Require Import Base.Word Base.Arr Model.Big Model.Roms Model.Fp Model.Fp2 Model.Ecp Spec.BigSpec Spec.RomSpec Spec.FpSpec Spec.CurveSpec Spec.EcpSpec Spec.JacobiSpec Spec.Bytes
  Proof.BigVal Proof.BigInv Proof.BigMod Proof.BigShift Proof.BigMonty Proof.BigMul Proof.BigMisc Proof.BigBytes Proof.BigJacobi Proof.Reciprocity Proof.FpBase Proof.FpRed Proof.FpOps Proof.FpPow Proof.FpExp Proof.FpSqrt Proof.FpIv Proof.NumTheory
  Proof.FieldP Proof.EcpOps.
From Coq Require Import Znumtheory.

Section Codec.
Variable r : rom.
Notation p := (pmod r).
Notation c := (r_cfg r).
Notation FX := (FEXCESS r).
Hypothesis Hf : fp_ok r.
Hypothesis HMX : MX r = FX.
Hypothesis Hfp : fpow_ok r.
Hypothesis Hp : prime p.
Hypothesis Hs5 : sqrt_ok5 r.
Notation V := (val (BASEBITS c)).
Let Hok : cfg_ok c := ff_ok r (fp_ok_facts r Hf).
Let Hmg : 4 <= maxg r := maxg_ge r Hf.
Let Hp3 : 3 < p. Proof. pose proof (p_big r Hf). assert (2 ^ 3 <= 2 ^ 199) by (apply pow2_le; lia). change (2 ^ 3) with 8 in *. lia. Qed.
Lemma frep_wf e f u : frep r 0 1 e f u -> big_wf c (fx f).
Proof. intros H. apply (legal_wf r Hf f). apply (frep_rep r Hf 0 1 e f u 1) in H; try lia. exact (proj1 H). Qed.
Lemma p_odd : Z.odd p = true.
Proof.
  destruct (Z.odd p) eqn:E; [reflexivity|exfalso]. assert (M : p mod 2 = 0) by (rewrite Zmod_odd, E; reflexivity). apply Z.mod_divide in M; [|lia].
  apply prime_div_prime in M; [lia|exact prime_2|exact Hp].
Qed.
(** redc of a normalised element: the canonical residue, up to the multiple p of 0 and, for special moduli, whatever is stored *)
Lemma redc_any e f u : frep r 0 1 e f u ->
  exists x, fp_redc r f = Some x /\ big_wf c x /\ V x mod p = u mod p /\ (V (fx f) < p -> V x = u mod p) /\ (special r = false -> u mod p <> 0 -> V x = u mod p).
Proof.
  intros H. pose proof (frep_wf _ _ _ H) as W. destruct H as [_ [[He1 He2] [HV Hd]]]. unfold den in Hd. unfold fp_redc. unfold fK in Hd. destruct (special r) eqn:Es.
  - exists (fx f). rewrite Z.mul_1_r in Hd. unfold bval in Hd. split; [reflexivity|]. split; [exact W|]. split; [exact Hd|]. split; [|discriminate]. intros L. rewrite <- Hd. rewrite Z.mod_small by lia. reflexivity.
  - pose proof (fp_ok_facts r Hf) as FF. destruct (scopy_spec c Hok (fx f) W) as [W2 V2]. unfold bval in *.
    unfold fp_modulo. pose proof (ff_red r FF) as Hr. unfold rom_red in Hr. unfold special in Es. destruct (r_MODTYPE r) eqn:Et; try discriminate; [|contradiction].
    destruct Hr as [_ [Hmc _]]. pose proof (SHp_lt r Hf) as HS. pose proof (SH_pos r Hf) as HS1.
    assert (HVR : V (fx f) < 2 ^ r_SH r * p). { unfold FEXCESS in *. assert (fxes f * p <= 2 ^ r_SH r * p) by (apply Z.mul_le_mono_nonneg_r; lia). lia. }
    assert (H2 : 2 * p < bmax c). { assert (2 * p <= 2 ^ r_SH r * p) by (apply Z.mul_le_mono_nonneg_r; lia). lia. }
    destruct (monty_spec c Hok (r_MODULUS r) (scopy c (fx f)) (r_MCONST r) (ff_wf r FF) W2 Hmc) as [x [q [R1 [R2 [R3 R4]]]]].
    { change (val (BASEBITS c) (r_MODULUS r)) with p. rewrite V2. assert (2 * p * bmax c <= bmax c * bmax c) by (apply Z.mul_le_mono_nonneg_r; lia).
      assert (p * bmax c >= 2 * bmax c) by (apply Z.le_ge; apply Z.mul_le_mono_nonneg_r; lia). unfold bmax in *. lia. }
    exists x. change (val (BASEBITS c) (r_MODULUS r)) with p in R4. rewrite V2 in R4. change (2 ^ (BASEBITS c * Z.of_nat (NLEN c))) with (bmax c) in R3, R4. pose proof (wf_range c Hok _ x R2) as Rx.
    assert (MC : V x mod p = u mod p).
    { apply (mod_cancel _ _ (bmax c)); [lia| |]. - pose proof (gcd_K r Hf) as G. unfold fK, special in G. rewrite Et in G. exact G. - rewrite R4, Z.mod_add by lia. exact Hd. }
    assert (Q : q * p <= (bmax c - 1) * p) by (apply Z.mul_le_mono_nonneg_r; lia).
    assert (Le : V x <= p). { apply Z.lt_succ_r. apply (Z.mul_lt_mono_pos_r (bmax c)); [lia|]. rewrite R4. replace (Z.succ p * bmax c) with ((bmax c - 1) * p + p + bmax c) by (unfold Z.succ; ring). lia. }
    split; [exact R1|]. split; [exact R2|]. split; [exact MC|]. split.
    + intros L. rewrite <- MC. rewrite Z.mod_small; [reflexivity|]. split; [lia|]. apply (Z.mul_lt_mono_pos_r (bmax c)); [lia|]. rewrite R4. replace (p * bmax c) with ((bmax c - 1) * p + p) by ring. lia.
    + intros _ Hz. rewrite <- MC. destruct (Z.eq_dec (V x) p) as [E|E]; [exfalso; apply Hz; rewrite <- MC, E; apply Z.mod_same; lia|]. rewrite Z.mod_small by lia. reflexivity.
Qed.
Lemma jac_ok e f u : frep r 0 1 e f u -> V (fx f) < p -> exists s, fp_jacobi r f = Some s /\ is_legendre p u s.
Proof.
  intros H L. destruct (redc_any e f u H) as [x [E1 [W [_ [E2 _]]]]]. specialize (E2 L). unfold fp_jacobi. rewrite E1. cbn [bind].
  pose proof (fp_ok_facts r Hf) as FF. pose proof p_odd as Ho. unfold pmod, bval in Ho. pose proof Hp3 as Hp3b. unfold pmod, bval in Hp3b. exists (jac (V x) p). split; [apply (jacobi_spec c Hok x (r_MODULUS r) W (ff_wf r FF)); [lia|exact Ho]|].
  pose proof (jac_is_legendre p (V x) Hp p_odd) as J. rewrite E2 in J |- *. unfold is_legendre in *. rewrite Z.mod_mod in J by lia. exact J.
Qed.

(** the code's right-hand side is a fully reduced element with value RHS x *)
Variable RHS : Z -> Z.
Hypothesis Hrhs : forall e x u, e <= 2 -> frep r 0 1 e x u -> exists f, ecp_rhs r x = Some f /\ frep r 0 1 1 f (RHS u).
Hypothesis Hnm : is_mont r = false.
Definition zi : Z := match r_CURVETYPE r with Edwards => 1 | _ => 0 end.
Definition neutral (P : ecp) : Prop := prep r P (0, 1, zi).
Let HFX : 2 <= FX. Proof. pose proof (SH_pos r Hf). unfold FEXCESS. lia. Qed.
Lemma V_of1 f u : frep r 0 1 1 f u -> V (fx f) < p.
Proof. intros [_ [[H1 H2] [H3 _]]]. replace (fxes f) with 1 in H3 by lia. lia. Qed.
Lemma frep_up e f u : frep r 0 1 e f u -> frep r 0 1 FX f u.
Proof. intros [A [B0 D]]. split; [exact A|]. split; [lia|exact D]. Qed.
Lemma inf_ok E : exists P, ecp_inf r E = Some P /\ neutral P.
Proof.
  unfold ecp_inf. rewrite Hnm. destruct (ione r Hf) as [o [O1 O2]]. rewrite O1. cbn [bind]. pose proof (inew r Hf) as N0. unfold neutral, prep, zi.
  destruct (r_CURVETYPE r); cbn [bind]; eexists; (split; [reflexivity|]); cbn [ex ey ez fst snd]; split; try split; eapply frep_up; eassumption.
Qed.
Lemma new_ok : exists P, ecp_new r = Some P /\ neutral P.
Proof.
  unfold ecp_new. destruct (inewint r Hf 1) as [y [Y1 Y2]]. { pose proof (cf_B _ (cfg_ok_facts _ Hok)). assert (2 ^ 1 <= 2 ^ BASEBITS c) by (apply pow2_le; lia). change (2 ^ 1) with 2 in *. lia. }
  rewrite Y1. cbn [bind]. destruct (ione r Hf) as [o [O1 O2]]. rewrite O1. cbn [bind]. pose proof (inew r Hf) as N0. unfold neutral, prep, zi.
  destruct (r_CURVETYPE r); eexists; (split; [reflexivity|]); cbn [ex ey ez fst snd]; split; try split; eapply frep_up; eassumption.
Qed.
Lemma nbig ix : big_wf c ix -> V ix < p -> exists f, fp_new_big r ix = Some f /\ frep r 0 1 2 f (V ix).
Proof. intros W L. destruct (nres_rep r Hf ix W (fun _ => L)) as [f [E1 [E2 E3]]]. exists f. split; [exact E1|]. apply rep_frep1; assumption. Qed.
Lemma nrm e f u : frep r 0 1 e f u -> exists f', fp_norm r f = Some f' /\ frep r 0 1 e f' u.
Proof. intros H. apply (inorm r Hf 0 1 e f u); try lia. exact H. Qed.

Lemma nbig_sp ix : special r = true -> big_wf c ix -> V ix < p -> exists f, fp_new_big r ix = Some f /\ frep r 0 1 1 f (V ix).
Proof. intros Es W L. destruct (nres_rep r Hf ix W (fun _ => L)) as [f [E1 [E2 E3]]]. exists f. split; [exact E1|]. apply rep_frep1; [|assumption]. unfold fp_new_big, fp_nres in E1. rewrite Es in E1. injection E1 as <-. cbn [fxes]. lia. Qed.
(** for special moduli the stored integers are below p *)
Definition stored (P : ecp) : Prop := special r = true -> V (fx (ex P)) < p /\ V (fx (ey P)) < p.
Theorem new_bigs_ok ix iy : big_wf c ix -> big_wf c iy -> V ix < p -> V iy < p ->
  exists P, ecp_new_bigs r ix iy = Some P /\
    ((V iy * V iy) mod p = RHS (V ix) mod p /\ prep r P (V ix, V iy, 1) /\ stored P \/ (V iy * V iy) mod p <> RHS (V ix) mod p /\ neutral P).
Proof.
  intros WX WY LX LY. unfold ecp_new_bigs. destruct (nbig ix WX LX) as [x [X1 X2]]. destruct (nbig iy WY LY) as [y [Y1 Y2]]. destruct (ione r Hf) as [o [O1 O2]].
  rewrite X1, Y1, O1. cbn [bind]. destruct (nrm _ _ _ X2) as [x' [N1 N2]]. rewrite N1. cbn [bind]. destruct (Hrhs 2 x' _ ltac:(lia) N2) as [h [H1 H2]]. rewrite H1. cbn [bind]. rewrite Hnm.
  destruct (isqrf r Hf 2 y _ HMX Y2) as [s [S1 S2]]. rewrite S1. cbn [bind].
  rewrite (iequals r Hf 0 1 2 0 1 1 s h _ _ ltac:(lia) ltac:(lia) ltac:(lia) ltac:(lia) ltac:(lia) ltac:(lia) ltac:(lia) ltac:(lia) S2 H2). cbn [bind].
  destruct (Z.eqb_spec ((V iy * V iy) mod p) (RHS (V ix) mod p)) as [E|E]; cbn [negb].
  - eexists. split; [reflexivity|]. left. split; [exact E|]. split; [unfold prep; cbn [ex ey ez fst snd]; split; [|split]; eapply frep_up; eassumption|].
    intros Es. cbn [ex ey]. destruct (nbig_sp ix Es WX LX) as [x2 [A1 A2]]. destruct (nbig_sp iy Es WY LY) as [y2 [B1 B2]]. rewrite X1 in A1. rewrite Y1 in B1. injection A1 as <-. injection B1 as <-.
    destruct (nrm _ _ _ A2) as [x3 [A3 A4]]. rewrite N1 in A3. injection A3 as <-. split; eapply V_of1; eassumption.
  - destruct (inf_ok (mkecp x' y o)) as [P [P1 P2]]. exists P. split; [exact P1|]. right. auto.
Qed.
(** new_bigint may leave the y coordinate un-normalised (limbs of grade 2) *)
Definition sqrt_canon : Prop := special r = false \/ r_MOD8 r = 5.
Definition at2 (P : ecp) (x y : Z) : Prop := frep r 0 1 FX (ex P) x /\ frep r 1 1 FX (ey P) y /\ frep r 0 1 FX (ez P) 1.
Lemma reduce_xes a f : fp_reduce r a = Some f -> fxes f = 1.
Proof.
  unfold fp_reduce. intros H. repeat match type of H with bind ?x _ = Some _ => let y := fresh "y" in destruct x as [y|]; cbn [bind] in H; [|discriminate H] end.
  injection H as <-. reflexivity.
Qed.
Lemma sqrt5_xes a f : r_MOD8 r = 5 -> fp_sqrt r a = Some f -> fxes f = 1.
Proof.
  unfold fp_sqrt. intros M H. rewrite M in H. change (5 =? 5) with true in H. cbv iota in H.
  repeat match type of H with
  | bind ?x _ = Some _ => let y := fresh "y" in destruct x as [y|]; cbn [bind] in H; [|discriminate H]
  | (let '(_, _) := ?y in _) = _ => destruct y
  | fp_reduce _ _ = Some _ => apply reduce_xes in H; exact H
  end.
Qed.
Lemma parity01 x : big_wf c x -> parity x = V x mod 2.
Proof. apply (parity_wf c Hok). Qed.
Theorem new_bigint_ok ix s : big_wf c ix -> V ix < p -> s = 0 \/ s = 1 ->
  exists P, ecp_new_bigint r ix s = Some P /\
    ((exists w, (w * w) mod p = RHS (V ix) mod p /\ RHS (V ix) mod p <> 0 /\ at2 P (V ix) w /\ (sqrt_canon -> (w mod p) mod 2 = s)) \/
     (~ (RHS (V ix) mod p <> 0 /\ exists w, (w * w) mod p = RHS (V ix) mod p) /\ neutral P)).
Proof.
  intros WX LX Hs. unfold ecp_new_bigint. destruct new_ok as [E0 [N1 N2]]. rewrite N1. cbn [bind]. destruct (nbig ix WX LX) as [x [X1 X2]]. destruct (ione r Hf) as [o [O1 O2]].
  rewrite X1. cbn [bind]. destruct (nrm _ _ _ X2) as [x' [M1 M2]]. rewrite M1. cbn [bind]. rewrite O1. cbn [bind]. destruct (Hrhs 2 x' _ ltac:(lia) M2) as [h [H1 H2]]. rewrite H1. cbn [bind].
  destruct (jac_ok 1 h _ H2 (V_of1 _ _ H2)) as [j [J1 J2]]. rewrite J1. cbn [bind].
  destruct (Z.eqb_spec j 1) as [Ej|Ej].
  - assert (Sq : RHS (V ix) mod p <> 0 /\ exists w, (w * w) mod p = RHS (V ix) mod p) by (destruct J2 as [[_ J2]|[[A [B _]]|[_ [_ J2]]]]; [lia|split; [exact A|exact B]|lia]). destruct Sq as [Nz Sq].
    destruct (sqrt_rep r Hf 1 h (RHS (V ix)) Hp ltac:(lia) Hfp Hs5 (frep_rep r Hf 0 1 1 h _ 1 ltac:(lia) ltac:(lia) H2) Sq) as [ny [w [Y1 [Y2 Y3]]]]. rewrite Y1. cbn [bind].
    assert (Y4 : frep r 0 1 FX ny w) by (apply rep_frep1; [destruct Y2 as [[_ [_ [Y2 _]]] _]; lia|exact Y2]).
    destruct (redc_any FX ny w Y4) as [nr [R1 [RW [R2 [R3 R4]]]]]. rewrite R1. cbn [bind].
    assert (Wnz : w mod p <> 0). { intros E. apply Nz. rewrite <- Y3. rewrite Z.mul_mod, E by lia. apply Z.mod_0_l. lia. }
    assert (Can : sqrt_canon -> V nr = w mod p).
    { intros [S|S]; [apply R4; assumption|]. apply R3. pose proof (sqrt5_xes _ _ S Y1) as X. destruct Y4 as [_ [_ [Y4 _]]]. rewrite X in Y4. lia. }
    rewrite (parity01 nr RW). destruct (Z.eqb_spec (V nr mod 2) s) as [Es|Es]; cbn [negb bind].
    + eexists. split; [reflexivity|]. left. exists w. split; [exact Y3|]. split; [exact Nz|]. split.
      * unfold at2. cbn [ex ey ez]. split; [eapply frep_up; exact M2|]. split; [|eapply frep_up; exact O2]. apply (frep_mono r Hf 0 1 FX 1 1 FX); [lia|lia|lia|exact Y4].
      * intros S. rewrite <- (Can S). exact Es.
    + destruct (ineg r Hf 0 1 FX ny w ltac:(lia) ltac:(lia) ltac:(lia) ltac:(lia) ltac:(right; lia) Y4) as [n [E1 E2]]. rewrite E1. cbn [bind]. eexists. split; [reflexivity|]. left. exists (- w).
      split; [rewrite <- Y3; f_equal; ring|]. split; [exact Nz|]. split.
      * unfold at2. cbn [ex ey ez]. split; [eapply frep_up; exact M2|]. split; [|eapply frep_up; exact O2]. destruct E2 as [A [B0 D]]. split; [exact A|]. split; [lia|exact D].
      * intros S. rewrite Z.mod_opp_l_nz by (try lia; exact Wnz). rewrite (Can S) in Es. pose proof (Z.mod_pos_bound (w mod p) 2 ltac:(lia)). pose proof p_odd as Ho. rewrite Zodd_mod in Ho. apply Zeq_bool_eq in Ho.
        rewrite Zminus_mod, Ho. destruct Hs as [-> | ->]; [replace ((w mod p) mod 2) with 1 by lia; reflexivity|replace ((w mod p) mod 2) with 0 by lia; reflexivity].
  - destruct (inf_ok (mkecp x' (ey E0) o)) as [P [P1 P2]]. exists P. split; [exact P1|]. right. split; [|exact P2]. intros [Nz Sq].
    destruct J2 as [[A _]|[[_ [_ A]]|[_ [A _]]]]; [apply Nz; exact A|lia|apply A; exact Sq].
Qed.

(** ** bytes *)
Lemma skipn_skipn' {A} (l : list A) : forall n m, skipn n (skipn m l) = skipn (m + n) l.
Proof. intros n m. revert l. induction m as [|m IH]; intros l; [reflexivity|]. destruct l as [|x l]; [rewrite !skipn_nil; reflexivity|]. cbn [skipn Nat.add]. apply IH. Qed.
Notation mb := (Z.to_nat (MODBYTES c)).
Lemma get_range_ok n : forall (b : list Z) i, (i + n <= length b)%nat -> get_range b i n = Some (firstn n (skipn i b)).
Proof.
  induction n as [|n IH]; intros b i H; cbn [get_range firstn]; [reflexivity|].
  destruct (nth_error b i) as [x|] eqn:E; [|apply nth_error_None in E; lia]. rewrite IH by lia. cbn [bind].
  clear IH. apply nth_error_split in E. destruct E as [l1 [l2 [E1 E2]]]. rewrite E1. clear E1 H. subst i.
  replace (skipn (length l1) (l1 ++ x :: l2)) with (x :: l2) by (rewrite skipn_app, skipn_all, Nat.sub_diag; reflexivity). cbn [firstn].
  replace (skipn (S (length l1)) (l1 ++ x :: l2)) with l2; [reflexivity|]. replace (l1 ++ x :: l2) with ((l1 ++ [x]) ++ l2) by (rewrite <- app_assoc; reflexivity).
  replace (S (length l1)) with (length (l1 ++ [x])) by (rewrite app_length; cbn; lia). rewrite skipn_app, skipn_all, Nat.sub_diag. reflexivity.
Qed.
Lemma put_from_ok t : forall (b : list Z) i, (i + length t <= length b)%nat -> put_from b i t = Some (firstn i b ++ t ++ skipn (i + length t) b).
Proof.
  induction t as [|x t IH]; intros b i H; cbn [put_from length app] in *.
  - rewrite Nat.add_0_r, firstn_skipn. reflexivity.
  - destruct (Nat.ltb_spec i (length b)); [|lia]. rewrite IH by (rewrite aset_length; lia). f_equal.
    destruct (nth_error b i) as [z|] eqn:E; [|apply nth_error_None in E; lia]. apply nth_error_split in E. destruct E as [l1 [l2 [E1 E2]]]. subst b. rewrite <- E2.
    assert (EA : aset (l1 ++ z :: l2) (length l1) x = l1 ++ x :: l2). { clear. induction l1 as [|y l1 IHl]; cbn; [reflexivity|]. rewrite IHl. reflexivity. } rewrite EA.
    rewrite !app_length in H. cbn [length] in H.
    replace (l1 ++ x :: l2) with ((l1 ++ [x]) ++ l2) by (rewrite <- app_assoc; reflexivity). 
    assert (EF : firstn (S (length l1)) ((l1 ++ [x]) ++ l2) = l1 ++ [x]). { rewrite firstn_app. rewrite firstn_all2 by (rewrite app_length; cbn; lia). rewrite app_length. cbn [length]. replace (S (length l1) - (length l1 + 1))%nat with 0%nat by lia. cbn [firstn]. apply app_nil_r. }
    assert (ES : skipn (S (length l1) + length t) ((l1 ++ [x]) ++ l2) = skipn (length t) l2). { rewrite skipn_app. rewrite skipn_all2 by (rewrite app_length; cbn; lia). rewrite app_length. cbn [length app]. f_equal. lia. }
    assert (EG : firstn (length l1) (l1 ++ z :: l2) = l1). { rewrite firstn_app, firstn_all, Nat.sub_diag. cbn [firstn]. apply app_nil_r. }
    assert (EH : skipn (length l1 + S (length t)) (l1 ++ z :: l2) = skipn (length t) l2). { rewrite skipn_app. rewrite skipn_all2 by lia. replace (length l1 + S (length t) - length l1)%nat with (S (length t)) by lia. reflexivity. }
    rewrite EF, ES, EG, EH. rewrite <- app_assoc. reflexivity.
Qed.
Lemma frb t : bytes t -> length t = mb -> exists w, frombytes c t = Some w /\ big_wf c w /\ V w = os2ip t.
Proof.
  intros Hb Hl. destruct (frombytearray_spec c Hok t 0 Hb ltac:(lia)) as [w [R1 [R2 R3]]]. rewrite Hl, Nat.min_id in R3. cbn [skipn] in R3. rewrite firstn_all2 in R3 by lia.
  exists w. auto.
Qed.
Lemma comp_p w : big_wf c w -> (0 <=? comp w (r_MODULUS r)) = (p <=? V w).
Proof.
  intros [L W]. pose proof (ff_wf r (fp_ok_facts r Hf)) as [L2 W2]. rewrite (comp_spec c); [|pose proof (cf_B _ (cfg_ok_facts _ Hok)); lia|apply canon_nrm; exact W|apply canon_nrm; exact W2|congruence].
  change (val (BASEBITS c) (r_MODULUS r)) with p. destruct (Z.compare_spec (V w) p) as [E|E|E]; destruct (Z.leb_spec p (V w)); try lia; reflexivity.
Qed.
Lemma bytes_sub t i n : bytes t -> bytes (firstn n (skipn i t)).
Proof. intros H. unfold bytes in *. rewrite Forall_forall in *. intros x I. apply H. rewrite <- (firstn_skipn i t). apply in_or_app. right. rewrite <- (firstn_skipn n (skipn i t)). apply in_or_app. left. exact I. Qed.
Lemma len_sub (t : list Z) i n : (i + n <= length t)%nat -> length (firstn n (skipn i t)) = n.
Proof. intros H. rewrite firstn_length, skipn_length. lia. Qed.
Definition xpart (b : list Z) : Z := os2ip (firstn mb (skipn 1 b)).
Definition ypart (b : list Z) : Z := os2ip (firstn mb (skipn (mb + 1) b)).
Lemma land1 t : Z.land t 1 = t mod 2.
Proof. exact (Z.land_ones t 1 ltac:(lia)). Qed.
(** whatever the bytes: no panic, and a point of the curve *)
Theorem frombytes_ok b : bytes b -> (mb + 1 <= length b)%nat -> (nth_error b 0 = Some 4 -> (2 * mb + 1 <= length b)%nat) ->
  exists P, ecp_frombytes r b = Some P /\ (neutral P \/ exists x y, 0 <= x < p /\ (y * y) mod p = RHS x mod p /\ at2 P x y).
Proof.
  intros Hb Hl Hl4. unfold ecp_frombytes. cbv zeta. rewrite get_range_ok by lia. cbn [bind].
  destruct (frb (firstn mb (skipn 1 b)) (bytes_sub _ _ _ Hb) (len_sub b 1 mb ltac:(lia))) as [px [X1 [X2 X3]]]. rewrite X1. cbn [bind]. rewrite (comp_p px X2). pose proof (wf_range c Hok _ px X2) as RX.
  destruct new_ok as [N0 [N1 N2]]. destruct (Z.leb_spec p (V px)) as [L|L]; [exists N0; auto|]. rewrite Hnm.
  destruct (nth_error b 0) as [tag|] eqn:Et; [|apply nth_error_None in Et; lia]. cbn [bind].
  destruct (Z.eqb_spec tag 4) as [T|T].
  - subst tag. specialize (Hl4 eq_refl). rewrite get_range_ok by lia. cbn [bind].
    destruct (frb (firstn mb (skipn (mb + 1) b)) (bytes_sub _ _ _ Hb) (len_sub b (mb + 1) mb ltac:(lia))) as [py [Y1 [Y2 Y3]]]. rewrite Y1. cbn [bind]. rewrite (comp_p py Y2).
    destruct (Z.leb_spec p (V py)) as [L'|L']; [exists N0; auto|]. destruct (new_bigs_ok px py X2 Y2 L L') as [P [P1 [[P2 [P3 _]]|[P2 P3]]]]; exists P; (split; [exact P1|]); [right|left; exact P3].
    exists (V px), (V py). split; [lia|]. split; [exact P2|]. destruct P3 as [A [B0 D]]. cbn [fst snd] in *. split; [exact A|]. split; [|exact D]. apply (frep_mono r Hf 0 1 FX 1 1 FX); [lia|lia|lia|exact B0].
  - destruct ((tag =? 2) || (tag =? 3)); [|exists N0; auto].
    assert (S01 : Z.land tag 1 = 0 \/ Z.land tag 1 = 1). { rewrite (land1 tag). pose proof (Z.mod_pos_bound tag 2 ltac:(lia)). lia. }
    destruct (new_bigint_ok px _ X2 L S01) as [P [P1 [[w [W1 [W2 [W3 _]]]]|[_ W]]]]; exists P; (split; [exact P1|]); [right|left; exact W].
    exists (V px), w. split; [lia|]. auto.
Qed.
Theorem decode_xy b : bytes b -> (2 * mb + 1 <= length b)%nat -> nth_error b 0 = Some 4 -> xpart b < p -> ypart b < p -> (ypart b * ypart b) mod p = RHS (xpart b) mod p ->
  exists P, ecp_frombytes r b = Some P /\ prep r P (xpart b, ypart b, 1) /\ stored P.
Proof.
  intros Hb Hl Et HX HY Hc. unfold ecp_frombytes. cbv zeta. rewrite get_range_ok by lia. cbn [bind]. unfold xpart, ypart in *.
  destruct (frb (firstn mb (skipn 1 b)) (bytes_sub _ _ _ Hb) (len_sub b 1 mb ltac:(lia))) as [px [X1 [X2 X3]]]. rewrite X1. cbn [bind]. rewrite (comp_p px X2).
  destruct (Z.leb_spec p (V px)) as [L|L]; [lia|]. rewrite Hnm, Et. cbn [bind]. change (4 =? 4) with true. cbv iota. rewrite get_range_ok by lia. cbn [bind].
  destruct (frb (firstn mb (skipn (mb + 1) b)) (bytes_sub _ _ _ Hb) (len_sub b (mb + 1) mb ltac:(lia))) as [py [Y1 [Y2 Y3]]]. rewrite Y1. cbn [bind]. rewrite (comp_p py Y2).
  destruct (Z.leb_spec p (V py)) as [L'|L']; [lia|]. rewrite <- X3, <- Y3 in *. destruct (new_bigs_ok px py X2 Y2 L L') as [P [P1 [[P2 P3]|[P2 P3]]]]; [|contradiction]. exists P. auto.
Qed.
Lemma root_unique w y : (w * w) mod p = (y * y) mod p -> 0 < y < p -> (w mod p) mod 2 = y mod 2 -> w mod p = y mod p.
Proof.
  intros H Hy Hpar. assert (D : (p | (w - y) * (w + y))) by (apply mod_eq_divide in H; [|lia]; replace ((w - y) * (w + y)) with (w * w - y * y) by ring; exact H).
  apply prime_mult in D; [|exact Hp]. destruct D as [D|D]; [apply mod_eq_divide; [lia|exact D]|exfalso].
  assert (E : w mod p = (- y) mod p) by (apply mod_eq_divide; [lia|]; replace (w - - y) with (w + y) by ring; exact D).
  assert (Hym : y mod p = y) by (apply Z.mod_small; lia). rewrite Z.mod_opp_l_nz in E by lia. rewrite Hym in E. rewrite E in Hpar. pose proof p_odd as Ho. rewrite Zodd_mod in Ho. apply Zeq_bool_eq in Ho.
  rewrite Zminus_mod, Ho in Hpar. pose proof (Z.mod_pos_bound y 2 ltac:(lia)). destruct (Z.eq_dec (y mod 2) 0) as [E0|E0]; [rewrite E0 in Hpar; discriminate Hpar|]. replace (y mod 2) with 1 in Hpar by lia. discriminate Hpar.
Qed.
Theorem decode_x b y : sqrt_canon -> bytes b -> (mb + 1 <= length b)%nat -> nth_error b 0 = Some (2 + y mod 2) -> xpart b < p -> 0 < y < p -> (y * y) mod p = RHS (xpart b) mod p ->
  exists P, ecp_frombytes r b = Some P /\ at2 P (xpart b) y.
Proof.
  intros SC Hb Hl Et HX HY Hc. unfold ecp_frombytes. cbv zeta. rewrite get_range_ok by lia. cbn [bind]. unfold xpart in *.
  destruct (frb (firstn mb (skipn 1 b)) (bytes_sub _ _ _ Hb) (len_sub b 1 mb ltac:(lia))) as [px [X1 [X2 X3]]]. rewrite X1. cbn [bind]. rewrite (comp_p px X2).
  destruct (Z.leb_spec p (V px)) as [L|L]; [lia|]. rewrite Hnm, Et. cbn [bind]. rewrite <- X3 in *. pose proof (Z.mod_pos_bound y 2 ltac:(lia)).
  destruct (Z.eqb_spec (2 + y mod 2) 4) as [T|T]; [lia|]. replace ((2 + y mod 2 =? 2) || (2 + y mod 2 =? 3)) with true by (symmetry; apply orb_true_iff; rewrite !Z.eqb_eq; lia).
  assert (EL : Z.land (2 + y mod 2) 1 = y mod 2). { rewrite land1. rewrite Z.add_comm. replace (y mod 2 + 2) with (y mod 2 + 1 * 2) by ring. rewrite Z.mod_add by lia. apply Z.mod_mod. lia. }
  rewrite EL. assert (Nz : RHS (V px) mod p <> 0).
  { rewrite <- Hc. intros E. apply prime_mul_zero in E; [|exact Hp]. rewrite Z.mod_small in E by lia. lia. }
  destruct (new_bigint_ok px (y mod 2) X2 L ltac:(lia)) as [P [P1 [[w [W1 [W2 [W3 W4]]]]|[W _]]]]; [|exfalso; apply W; split; [exact Nz|exists y; exact Hc]].
  exists P. split; [exact P1|]. specialize (W4 SC). assert (E : w mod p = y mod p) by (apply root_unique; [rewrite W1; symmetry; exact Hc|exact HY|exact W4]).
  destruct W3 as [A [B0 D]]. split; [exact A|]. split; [|exact D]. eapply frep_cong; [exact E|exact B0].
Qed.
(** encoding *)
Theorem encode_xy P W xr yr b : ecp_affine r P = Some W -> fp_redc r (ex W) = Some xr -> fp_redc r (ey W) = Some yr -> big_wf c xr -> big_wf c yr -> (2 * mb + 1 <= length b)%nat ->
  ecp_tobytes r P b false = Some (4 :: i2osp (V xr) mb ++ i2osp (V yr) mb ++ skipn (2 * mb + 1) b).
Proof.
  intros EA EX EY WX WY Hl. unfold ecp_tobytes. cbv zeta. rewrite EA. cbn [bind]. rewrite EX. cbn [bind]. unfold tobytes. rewrite (tobytearray_spec c Hok xr) by (try exact WX; rewrite repeat_length; lia). cbn [bind firstn app Nat.add].
  rewrite (skipn_all2 (repeat 0 mb)) by (rewrite repeat_length; lia). rewrite app_nil_r. rewrite put_from_ok by (rewrite i2osp_length; lia). cbn [bind]. rewrite Hnm, i2osp_length.
  destruct b as [|b0 b]; [cbn [length] in Hl; lia|]. cbn [length] in Hl. cbn [firstn Nat.add skipn app].
  unfold put1. rewrite put_from_ok by (cbn [length]; lia). cbn [length Nat.add firstn app skipn bind]. rewrite EY. cbn [bind].
  rewrite (tobytearray_spec c Hok yr) by (try exact WY; rewrite i2osp_length; lia). cbn [bind firstn app Nat.add]. rewrite (skipn_all2 (i2osp (V xr) mb)) by (rewrite i2osp_length; lia). rewrite app_nil_r.
  rewrite put_from_ok by (cbn [length]; rewrite app_length, !i2osp_length, skipn_length; lia). f_equal. rewrite i2osp_length.
  replace (mb + 1)%nat with (S mb) by lia. cbn [firstn app Nat.add skipn]. f_equal. rewrite firstn_app, i2osp_length, Nat.sub_diag. cbn [firstn]. rewrite app_nil_r, firstn_all2 by (rewrite i2osp_length; lia). f_equal. f_equal.
  replace (mb + (mb + 0) + 1)%nat with (S (mb + mb)) by lia. cbn [skipn]. rewrite skipn_app, i2osp_length. rewrite skipn_all2 by (rewrite i2osp_length; lia). cbn [app]. rewrite skipn_skipn'. replace (2 * mb + 1)%nat with (S (mb + (mb + mb - mb))) by lia. reflexivity.
Qed.
Theorem encode_x P W xr yr b : ecp_affine r P = Some W -> fp_redc r (ex W) = Some xr -> fp_redc r (ey W) = Some yr -> big_wf c xr -> big_wf c yr -> (mb + 1 <= length b)%nat ->
  ecp_tobytes r P b true = Some ((2 + V yr mod 2) :: i2osp (V xr) mb ++ skipn (mb + 1) b).
Proof.
  intros EA EX EY WX WY Hl. unfold ecp_tobytes. cbv zeta. rewrite EA. cbn [bind]. rewrite EX. cbn [bind]. unfold tobytes. rewrite (tobytearray_spec c Hok xr) by (try exact WX; rewrite repeat_length; lia). cbn [bind firstn app Nat.add].
  rewrite (skipn_all2 (repeat 0 mb)) by (rewrite repeat_length; lia). rewrite app_nil_r. rewrite put_from_ok by (rewrite i2osp_length; lia). cbn [bind]. rewrite Hnm, i2osp_length. rewrite EY. cbn [bind].
  destruct b as [|b0 b]; [cbn [length] in Hl; lia|]. cbn [length] in Hl. cbn [firstn Nat.add skipn app].
  unfold put1. rewrite put_from_ok by (cbn [length]; lia). cbn [length Nat.add firstn app skipn]. f_equal. rewrite (parity01 yr WY). pose proof (Z.mod_pos_bound (V yr) 2 ltac:(lia)).
  f_equal; [destruct (Z.eqb_spec (V yr mod 2) 1); lia|]. f_equal. replace (mb + 1)%nat with (S mb) by lia. reflexivity.
Qed.
End Codec.
