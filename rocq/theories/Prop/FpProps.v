(** C13-C16, C49 (FP level) and the field part of C12.  [fp_rep r g f v]: the object f is well formed with grade g and
    stores the class of the integer v modulo the field prime (Spec/FpSpec.v).  Theorems hold for every ROM meeting the
    stated conditions; [field_roms] proves the conditions for the shipped ones. *)
From Verif Require Import Base.Word Model.Big Model.Roms Model.Fp Spec.BigSpec Spec.RomSpec Spec.FpSpec Spec.FpProg Spec.Bytes
  Proof.BigVal Proof.BigMod Proof.BigInv2m Proof.NumTheory Proof.FpBase Proof.FpRed Proof.FpOps Proof.FpPow Proof.FpExp Proof.FpSqrt Proof.FpCheck Proof.RomCheck Proof.BigShift Proof.BigMonty Proof.BigMul.
From Coq Require Import Psatz Znumtheory Zpow_facts.

(** ** the conditions hold for the shipped constants *)
Definition field_rom (r : rom) : Prop := fp_ok r /\ fpow_ok r /\ sqrt_ok5 r.
Theorem field_roms : Forall (fun r => field_rom r \/ In r [rom_fp512bn_32; rom_nums384e_32; rom_nums384w_32]) all_roms.
Proof.
  assert (G : forall r, checkb r = true -> fp_okb r = true -> fpow_okb r = true -> sqrt_okb r = true -> field_rom r).
  { intros r H1 H2 H3 H4. assert (Hf : fp_ok r) by (split; [apply checkb_ok; exact H1|exact H2]). split; [exact Hf|]. split; [apply fpow_okb_ok; exact H3|apply sqrt_okb_ok; assumption]. }
  unfold all_roms. repeat (apply Forall_cons; [first [left; apply G; vm_compute; reflexivity|right; cbn [In]; tauto]|]). apply Forall_nil.
Qed.
Print Assumptions field_roms.
(** only the goldilocks reduction tolerates less than the advertised excess *)
Theorem MX_full : Forall (fun r => MX r = FEXCESS r \/ In r [rom_goldilocks_32; rom_goldilocks_64]) all_roms.
Proof. unfold all_roms. repeat (apply Forall_cons; [first [left; vm_compute; reflexivity|right; cbn [In]; tauto]|]). apply Forall_nil. Qed.
Print Assumptions MX_full.

(** ** C12: every reduction method returns a number congruent to d (divided by the Montgomery factor, if any) below 2p *)
Theorem C12_field_reduction : forall r d, fp_ok r -> dbig_wf (r_cfg r) d -> bval (r_cfg r) d < MX r * pmod r * pmod r ->
  exists x, fp_modulo r d = Some x /\ big_wf (r_cfg r) x /\ bval (r_cfg r) x < 2 * pmod r /\ (bval (r_cfg r) x * fK r) mod pmod r = bval (r_cfg r) d mod pmod r.
Proof. intros r d Hf. exact (modulo_spec r Hf d). Qed.
Print Assumptions C12_field_reduction.
(* the unreduced product of 5 and 2^520 + 6, reduced modulo 2^521 - 1 *)
Definition C12_d : list Z := Eval vm_compute in
  let c := r_cfg rom_nist521_64 in
  match mul c (5 :: repeat 0 (NLEN c - 1)) (6 :: repeat 0 (NLEN c - 2) ++ [2 ^ (520 - BASEBITS c * (Z.of_nat (NLEN c) - 1))]) with Some d => d | None => [] end.
Example C12_field_reduction_ex : dbig_wf (r_cfg rom_nist521_64) C12_d /\ bval (r_cfg rom_nist521_64) C12_d = 5 * (2 ^ 520 + 6)
  /\ match fp_modulo rom_nist521_64 C12_d with Some x => bval (r_cfg rom_nist521_64) x = 2 ^ 520 + 2 + 30 | None => False end.
Proof.
  split; [|split; vm_compute; reflexivity]. split; [reflexivity|]. unfold C12_d. repeat (apply Forall_cons; [vm_compute; split; congruence|]). apply Forall_nil.
Qed.

(** ** C13: every disciplined operation history computes in Z/p, without panic *)
Lemma step_ok r o s g g' v : fp_ok r -> MX r = FEXCESS r -> (forall i, 1 <= g i <= maxg r) -> (forall i, fp_rep r (g i) (s i) (v i)) ->
  grade_step r o g = Some g' -> exists s', run_step r o s = Some s' /\ (forall i, 1 <= g' i <= maxg r) /\ (forall i, fp_rep r (g' i) (s' i) (spec_step r o v i)).
Proof.
  intros Hf HM Hg HR Hs. pose proof (maxg_ge r Hf) as Hmg.
  assert (fin : forall d f gd vd, 1 <= gd <= maxg r -> fp_rep r gd f vd ->
    (forall i, 1 <= upd g d gd i <= maxg r) /\ (forall i, fp_rep r (upd g d gd i) (upd s d f i) (upd v d vd i))).
  { intros d f gd vd H1 H2. split; intros i; unfold upd; destruct (Nat.eqb i d); auto. }
  assert (same : forall d f vd, g d = 1 -> fp_rep r 1 f vd -> (forall i, 1 <= g i <= maxg r) /\ (forall i, fp_rep r (g i) (upd s d f i) (upd v d vd i))).
  { intros d f vd H1 H2. split; [exact Hg|]. intros i. unfold upd. destruct (Nat.eqb_spec i d) as [->|]; [rewrite H1; exact H2|apply HR]. }
  assert (keep : forall d f, fp_rep r 1 f (v d) -> (forall i, 1 <= upd g d 1 i <= maxg r) /\ (forall i, fp_rep r (upd g d 1 i) (upd s d f i) (v i))).
  { intros d f H2. split; intros i; unfold upd; destruct (Nat.eqb_spec i d) as [->|]; auto. lia. }
  assert (MO : forall a b, mulok r a b) by (intros; left; exact HM).
  destruct o as [d k|d x|d i|d i|d i|d i|d|d|d i|d|d k|d|d|d]; cbn [grade_step run_step spec_step] in *.
  - destruct (_ && _) eqn:E in Hs; [|discriminate]. inv Hs. apply andb_true_iff in E. rewrite Z.leb_le, Z.ltb_lt in E.
    destruct (new_int_rep r Hf k E) as [f [E1 [_ E2]]]. rewrite E1. eexists. split; [reflexivity|]. apply fin; [lia|exact E2].
  - destruct (_ && _) eqn:E in Hs; [|discriminate]. inv Hs. rewrite !andb_true_iff, Nat.eqb_eq, orb_true_iff, negb_true_iff, Z.ltb_lt in E. destruct E as [[E1 E2] E3].
    assert (W : big_wf (r_cfg r) x).
    { split; [exact E1|]. rewrite forallb_forall in E2. apply Forall_forall. intros y Hy. specialize (E2 y Hy). rewrite andb_true_iff, Z.leb_le, Z.ltb_lt in E2. exact E2. }
    destruct (nres_rep r Hf x W) as [f [F1 [_ F2]]]; [intros Es; destruct E3 as [E3|E3]; [congruence|exact E3]|].
    unfold fp_new_big. rewrite F1. eexists. split; [reflexivity|]. apply fin; [lia|exact F2].
  - inv Hs. eexists. split; [reflexivity|]. apply fin; auto.
  - destruct (Z.leb_spec (g d + g i) (maxg r)) as [L|L]; [|discriminate]. inv Hs. pose proof (Hg d). pose proof (Hg i).
    destruct (add_rep r Hf (g d) (g i) (s d) (s i) (v d) (v i)) as [f [F1 F2]]; auto; try lia. rewrite F1. eexists. split; [reflexivity|]. apply fin; [lia|exact F2].
  - destruct (Z.leb_spec (g d + g i + 1) (maxg r)) as [L|L]; [|discriminate]. inv Hs. pose proof (Hg d). pose proof (Hg i).
    destruct (sub_rep r Hf (g d) (g i) (s d) (s i) (v d) (v i)) as [f [F1 F2]]; auto; try lia. rewrite F1. eexists. split; [reflexivity|]. apply fin; [lia|exact F2].
  - destruct (Z.leb_spec (g d + g i + 1) (maxg r)) as [L|L]; [|discriminate]. inv Hs. pose proof (Hg d). pose proof (Hg i).
    destruct (rsub_rep r Hf (g d) (g i) (s d) (s i) (v d) (v i)) as [f [F1 F2]]; auto; try lia. rewrite F1. eexists. split; [reflexivity|]. apply fin; [lia|exact F2].
  - destruct (Z.leb_spec (g d + 1) (maxg r)) as [L|L]; [|discriminate]. inv Hs. pose proof (Hg d).
    destruct (neg_rep r Hf (g d) (s d) (v d)) as [f [F1 F2]]; auto; try lia. rewrite F1. eexists. split; [reflexivity|]. apply fin; [lia|exact F2].
  - destruct (Z.leb_spec (2 * g d) (maxg r)) as [L|L]; [|discriminate]. inv Hs. pose proof (Hg d).
    destruct (dbl_rep r Hf (g d) (s d) (v d)) as [f [F1 F2]]; auto; try lia. rewrite F1. eexists. split; [reflexivity|]. apply (fin d f (2 * g d) (2 * v d)); [clear - L H; lia|exact F2].
  - destruct (_ && _) eqn:E in Hs; [|discriminate]. inv Hs. rewrite andb_true_iff, !Z.eqb_eq in E. destruct E as [G1 G2].
    pose proof (HR d) as Rd. pose proof (HR i) as Ri. rewrite G1 in Rd. rewrite G2 in Ri.
    destruct (mul_rep r Hf _ _ _ _ (MO _ _) Rd Ri) as [f [F1 [_ F2]]]. rewrite F1. eexists. split; [reflexivity|]. apply same; assumption.
  - destruct (Z.eqb_spec (g d) 1) as [G1|]; [|discriminate]. inv Hs. pose proof (HR d) as Rd. rewrite G1 in Rd.
    destruct (sqr_rep r Hf _ _ (MO _ _) Rd) as [f [F1 [_ F2]]]. rewrite F1. eexists. split; [reflexivity|]. apply same; assumption.
  - destruct (_ && _) eqn:E in Hs; [|discriminate]. inv Hs. rewrite !andb_true_iff, orb_true_iff, andb_true_iff, negb_true_iff, Z.eqb_eq, Z.eqb_neq, !Z.ltb_lt in E.
    destruct E as [[G1 Hk] Hov]. pose proof (HR d) as Rd. rewrite G1 in Rd.
    assert (Hov2 : special r = true \/ fxes (s d) * Z.abs k < 2 ^ 31).
    { destruct Hov as [Hov|[_ Hov]]; [left; exact Hov|right]. destruct Rd as [[_ [_ [Hx _]]] _]. assert (fxes (s d) * Z.abs k <= FEXCESS r * Z.abs k) by (apply Z.mul_le_mono_nonneg_r; lia). lia. }
    assert (Hk0 : special r = true \/ k <> 0) by tauto.
    assert (Q : exists f, fp_imul r (s d) k = Some f /\ fp_rep r 1 f (v d * k)).
    { destruct (Z.ltb_spec k 0) as [L|L].
      - apply (imul_neg_rep r Hf); [lia| |exact Rd]. rewrite Z.abs_neq in Hov2 by lia. exact Hov2.
      - rewrite Z.abs_eq in * by lia. apply (imul_pos_rep r Hf); [|lia|exact Hov2|exact Rd]. destruct Hk0; [left; assumption|right; lia]. }
    destruct Q as [f [F1 F2]]. rewrite F1. eexists. split; [reflexivity|]. apply same; assumption.
  - destruct (Z.eqb_spec (g d) 1) as [G1|]; [|discriminate]. inv Hs. pose proof (HR d) as Rd. rewrite G1 in Rd.
    destruct (div2_rep r Hf (s d) (v d) (v d * ((pmod r + 1) / 2)) Rd) as [f [F1 F2]].
    + pose proof (ff_odd r (fp_ok_facts r Hf)) as Ho. pose proof (p_pos r Hf). rewrite Zodd_mod in Ho. apply Zeq_bool_eq in Ho.
      assert (E : pmod r + 1 = 2 * ((pmod r + 1) / 2)). { apply Z_div_exact_full_2; [lia|]. rewrite Zplus_mod, Ho. reflexivity. }
      replace (2 * (v d * ((pmod r + 1) / 2))) with (v d * (2 * ((pmod r + 1) / 2))) by ring. rewrite <- E.
      replace (v d * (pmod r + 1)) with (v d + v d * pmod r) by ring. apply Z.mod_add. lia.
    + rewrite F1. eexists. split; [reflexivity|]. apply same; assumption.
  - inv Hs. destruct (norm_rep r Hf (g d) (s d) (v d) (Hg d) (HR d)) as [f [F1 [_ F2]]]. rewrite F1. eexists. split; [reflexivity|]. apply keep. exact F2.
  - inv Hs. destruct (reduce_rep r Hf (g d) (s d) (v d) (Hg d) (HR d)) as [f [F1 [_ [F2 _]]]]. rewrite F1. eexists. split; [reflexivity|]. apply keep. exact F2.
Qed.
(** any history from any legal state; excluded: goldilocks (see C13_goldilocks_refuted) and nums384/32 (C13_nums384_refuted) *)
Theorem C13_histories : forall r prog s g g' v, fp_ok r -> MX r = FEXCESS r ->
  (forall i, 1 <= g i <= maxg r) -> (forall i, fp_rep r (g i) (s i) (v i)) -> grades r prog g = Some g' ->
  exists s', run r prog s = Some s' /\ forall i, 1 <= g' i <= maxg r /\ fp_rep r (g' i) (s' i) (spec_run r prog v i).
Proof.
  intros r prog. induction prog as [|o prog IH]; intros s g g' v Hf HM Hg HR Hs; cbn [grades run spec_run] in *.
  - inv Hs. exists s. auto.
  - destruct (grade_step r o g) as [g1|] eqn:E; cbn [bind] in Hs; [|discriminate].
    destruct (step_ok r o s g g1 v Hf HM Hg HR E) as [s1 [E1 [E2 E3]]]. rewrite E1. cbn [bind]. eapply IH; eassumption.
Qed.
Print Assumptions C13_histories.
(** ... in particular from fresh objects; after reduce() the stored integer is the canonical residue *)
Theorem C13_from_fresh : forall r prog g', fp_ok r -> MX r = FEXCESS r -> grades r prog (fun _ => 1) = Some g' ->
  exists s', run r prog (fun _ => fp_new r) = Some s' /\ forall i, exists f x,
    fp_reduce r (s' i) = Some f /\ fp_redc r f = Some x /\ bval (r_cfg r) x = spec_run r prog (fun _ => 0) i mod pmod r.
Proof.
  intros r prog g' Hf HM Hs. pose proof (maxg_ge r Hf).
  destruct (C13_histories r prog (fun _ => fp_new r) (fun _ => 1) g' (fun _ => 0) Hf HM) as [s' [E1 E2]]; [intros; lia|intros; apply new_rep; exact Hf|exact Hs|].
  exists s'. split; [exact E1|]. intros i. destruct (E2 i) as [G1 G2]. destruct (redc_rep r Hf (g' i) (s' i) _ G1 G2) as [f [x [F1 [F2 [_ F3]]]]]. exists f, x. auto.
Qed.
Print Assumptions C13_from_fresh.
(** the operations one by one (also for goldilocks, where products need fxes a * fxes b <= MX) *)
Theorem C13_mul : forall r a b u v, fp_ok r -> (MX r = FEXCESS r \/ fxes a * fxes b <= MX r) -> fp_rep r 1 a u -> fp_rep r 1 b v ->
  exists f, fp_mul r a b = Some f /\ fp_rep r 1 f (u * v).
Proof. intros r a b u v Hf Hm HA HB. destruct (mul_rep r Hf a b u v Hm HA HB) as [f [E1 [_ E2]]]. eauto. Qed.
Print Assumptions C13_mul.
Theorem C13_sqr : forall r a u, fp_ok r -> (MX r = FEXCESS r \/ fxes a * fxes a <= MX r) -> fp_rep r 1 a u -> exists f, fp_sqr r a = Some f /\ fp_rep r 1 f (u * u).
Proof. intros r a u Hf Hm HA. destruct (sqr_rep r Hf a u Hm HA) as [f [E1 [_ E2]]]. eauto. Qed.
Print Assumptions C13_sqr.
Theorem C13_add : forall r g1 g2 a b u v, fp_ok r -> 1 <= g1 -> 1 <= g2 -> g1 + g2 <= maxg r -> fp_rep r g1 a u -> fp_rep r g2 b v ->
  exists f, fp_add r a b = Some f /\ fp_rep r (g1 + g2) f (u + v).
Proof. intros r g1 g2 a b u v Hf. apply add_rep. exact Hf. Qed.
Print Assumptions C13_add.
Theorem C13_sub : forall r g1 g2 a b u v, fp_ok r -> 1 <= g1 -> 1 <= g2 -> g1 + g2 + 1 <= maxg r -> fp_rep r g1 a u -> fp_rep r g2 b v ->
  exists f, fp_sub r a b = Some f /\ fp_rep r (g1 + g2 + 1) f (u - v).
Proof. intros r g1 g2 a b u v Hf. apply sub_rep. exact Hf. Qed.
Print Assumptions C13_sub.
Example C13_ex : let r := rom_bls381_64 in
  let prog := [FInt 0 5; FInt 1 7; FCopy 2 0; FMul 2 1; FSub 2 0; FDbl 2; FNorm 2; FNeg 1; FNorm 1; FMul 2 1; FImul 2 (-3); FDiv2 2] in
  exists g', grades r prog (fun _ => 1) = Some g' /\ spec_run r prog (fun _ => 0) 2%nat mod pmod r = 630.
Proof. cbv zeta. eexists. split; [vm_compute; reflexivity|vm_compute; reflexivity]. Qed.

(** goldilocks: seven normalised doublings of p-1 and a squaring, all with legal objects, give a wrong residue *)
Definition dbl_norm (n : nat) : list fop := concat (repeat [FDbl 0; FNorm 0] n).
Definition minus1 (r : rom) : list Z := match dec (r_cfg r) (r_MODULUS r) 1 with Some x => x | None => [] end.
Theorem C13_goldilocks_refuted :
  Forall (fun q => let r := fst q in let prog := FBig 0 (minus1 r) :: dbl_norm (snd q) ++ [FSqr 0] in
    fp_ok r /\ (exists g', grades r prog (fun _ => 1) = Some g') /\ exists s' f, run r prog (fun _ => fp_new r) = Some s' /\ fp_reduce r (s' 0%nat) = Some f
      /\ bval (r_cfg r) (fx f) <> spec_run r prog (fun _ => 0) 0%nat mod pmod r) [(rom_goldilocks_64, 7%nat); (rom_goldilocks_32, 5%nat)].
Proof.
  repeat (apply Forall_cons; [cbv zeta; split; [split; [apply checkb_ok; vm_compute; reflexivity|vm_compute; reflexivity]|split; [eexists; vm_compute; reflexivity|]]|]); [| |apply Forall_nil].
  - destruct (run (fst (rom_goldilocks_64, 7%nat)) (FBig 0 (minus1 (fst (rom_goldilocks_64, 7%nat))) :: dbl_norm (snd (rom_goldilocks_64, 7%nat)) ++ [FSqr 0]) (fun _ => fp_new (fst (rom_goldilocks_64, 7%nat)))) as [s'|] eqn:E; [|vm_compute in E; discriminate].
    exists s'. assert (E0 : option_map (fun s => s 0%nat) (Some s') = option_map (fun s => s 0%nat) (run (fst (rom_goldilocks_64, 7%nat)) (FBig 0 (minus1 (fst (rom_goldilocks_64, 7%nat))) :: dbl_norm (snd (rom_goldilocks_64, 7%nat)) ++ [FSqr 0]) (fun _ => fp_new (fst (rom_goldilocks_64, 7%nat))))) by (rewrite E; reflexivity).
    vm_compute in E0. injection E0 as E1. cbn [fst snd]. rewrite E1. eexists. split; [reflexivity|]. split; [vm_compute; reflexivity|]. vm_compute. discriminate.
  - destruct (run (fst (rom_goldilocks_32, 5%nat)) (FBig 0 (minus1 (fst (rom_goldilocks_32, 5%nat))) :: dbl_norm (snd (rom_goldilocks_32, 5%nat)) ++ [FSqr 0]) (fun _ => fp_new (fst (rom_goldilocks_32, 5%nat)))) as [s'|] eqn:E; [|vm_compute in E; discriminate].
    exists s'. assert (E0 : option_map (fun s => s 0%nat) (Some s') = option_map (fun s => s 0%nat) (run (fst (rom_goldilocks_32, 5%nat)) (FBig 0 (minus1 (fst (rom_goldilocks_32, 5%nat))) :: dbl_norm (snd (rom_goldilocks_32, 5%nat)) ++ [FSqr 0]) (fun _ => fp_new (fst (rom_goldilocks_32, 5%nat))))) by (rewrite E; reflexivity).
    vm_compute in E0. injection E0 as E1. cbn [fst snd]. rewrite E1. eexists. split; [reflexivity|]. split; [vm_compute; reflexivity|]. vm_compute. discriminate.
Qed.
Print Assumptions C13_goldilocks_refuted.
(** nums384 on 32-bit targets: (127 * -1) * (129 * -1), with every intermediate normalised, overflows an i32 in the reduction *)
Definition ladder127 : list fop := concat (repeat [FDbl 1; FNorm 1; FAdd 1 0; FNorm 1] 6).
Theorem C13_nums384_refuted :
  Forall (fun r => rom_ok r /\ let prog := FBig 0 (minus1 r) :: FCopy 1 0 :: ladder127 ++ [FCopy 2 1; FAdd 2 0; FNorm 2; FAdd 2 0; FNorm 2; FMul 1 2] in
    (exists g', grades r prog (fun _ => 1) = Some g') /\ run r prog (fun _ => fp_new r) = None /\ exists s', run r (removelast prog) (fun _ => fp_new r) = Some s')
  [rom_nums384w_32; rom_nums384e_32].
Proof.
  repeat (apply Forall_cons; [split; [apply checkb_ok; vm_compute; reflexivity|cbv zeta; split; [eexists; vm_compute; reflexivity|split; [vm_compute; reflexivity|eexists; vm_compute; reflexivity]]]|]). apply Forall_nil.
Qed.
Print Assumptions C13_nums384_refuted.
(** multiplying by the integer 0 records an excess of 0: the product is then not recognised as zero, and negating it panics *)
Theorem C13_imul_zero_refuted : let r := rom_bls381_64 in fp_ok r /\ exists f z, fp_new_int r 5 = Some f /\ fp_imul r f 0 = Some z
  /\ fxes z = 0 /\ iszilch (fx z) = true /\ fp_iszilch r z = Some false /\ fp_neg r z = None.
Proof.
  cbv zeta. split; [split; [apply checkb_ok; vm_compute; reflexivity|vm_compute; reflexivity]|].
  eexists. eexists. split; [vm_compute; reflexivity|]. split; [vm_compute; reflexivity|]. repeat (split; [vm_compute; reflexivity|]). vm_compute. reflexivity.
Qed.
Print Assumptions C13_imul_zero_refuted.
(** without normalisation, repeated doubling overflows a limb long before the excess counter asks for a reduction *)
Theorem C13_unnormalised_refuted : let r := rom_bls381_64 in exists g, fp_new_big r (minus1 r) = Some g /\ run r (repeat (FDbl 0) 5) (fun _ => g) <> None /\ run r (repeat (FDbl 0) 10) (fun _ => g) = None.
Proof. cbv zeta. eexists. split; [vm_compute; reflexivity|]. split; [vm_compute; discriminate|vm_compute; reflexivity]. Qed.
Print Assumptions C13_unnormalised_refuted.

(** ** C14 *)
Theorem C14_equals : forall r g1 g2 a b u v, fp_ok r -> 1 <= g1 <= maxg r -> 1 <= g2 <= maxg r -> fp_rep r g1 a u -> fp_rep r g2 b v ->
  fp_equals r a b = Some (u mod pmod r =? v mod pmod r).
Proof. intros r g1 g2 a b u v Hf. apply equals_rep. exact Hf. Qed.
Print Assumptions C14_equals.
Theorem C14_iszilch : forall r g a u, fp_ok r -> 1 <= g <= maxg r -> fp_rep r g a u -> fp_iszilch r a = Some (u mod pmod r =? 0).
Proof. intros r g a u Hf. apply iszilch_rep. exact Hf. Qed.
Print Assumptions C14_iszilch.
(** reduce() followed by redc() is the canonical residue, hence the same for equal elements *)
Theorem C14_reduced_canonical : forall r g a u, fp_ok r -> 1 <= g <= maxg r -> fp_rep r g a u ->
  exists f x, fp_reduce r a = Some f /\ fp_redc r f = Some x /\ big_wf (r_cfg r) x /\ bval (r_cfg r) x = u mod pmod r /\ fp_sgn0 r f = Some (Z.odd (u mod pmod r)).
Proof.
  intros r g a u Hf Hg HA. destruct (redc_rep r Hf g a u Hg HA) as [f [x [E1 [E2 [E3 E4]]]]]. exists f, x. repeat (split; [assumption|]).
  unfold fp_sgn0. rewrite E2. cbn [bind]. f_equal. pose proof (fp_ok_facts r Hf) as FF. pose proof (cfg_ok_facts _ (ff_ok r FF)) as F. pose proof (cf_B _ F). pose proof (cf_N _ F).
  rewrite (parity_spec (r_cfg r)); [|lia|intros E; destruct E3 as [E3 _]; rewrite E in E3; cbn in E3; lia|pose proof (canon_get (BASEBITS (r_cfg r)) x 0 ltac:(lia) (proj2 E3)); lia].
  unfold bval in E4. rewrite E4. rewrite Zmod_odd. destruct (Z.odd _); reflexivity.
Qed.
Print Assumptions C14_reduced_canonical.
Example C14_ex : exists a b, fp_new_int rom_bls381_64 3 = Some a /\ fp_new_int rom_bls381_64 5 = Some b /\ fp_equals rom_bls381_64 a b = Some false /\ fp_equals rom_bls381_64 a a = Some true.
Proof. eexists. eexists. split; [vm_compute; reflexivity|]. split; [vm_compute; reflexivity|]. split; vm_compute; reflexivity. Qed.
(** without reduce() the claim is false: -0 equals 0, but its redc() is p and its sign differs *)
Theorem C14_unreduced_refuted : Forall (fun r => fp_ok r /\ exists f x, fp_neg r (fp_new r) = Some f /\ fp_equals r f (fp_new r) = Some true
   /\ fp_redc r f = Some x /\ bval (r_cfg r) x = pmod r /\ fp_sgn0 r f = Some true /\ fp_sgn0 r (fp_new r) = Some false) [rom_bls381_64; rom_bls381_32; rom_c25519_64; rom_secp256k1_64].
Proof.
  repeat (apply Forall_cons; [split; [split; [apply checkb_ok; vm_compute; reflexivity|vm_compute; reflexivity]|eexists; eexists; split; [vm_compute; reflexivity|]; split; [vm_compute; reflexivity|]; split; [vm_compute; reflexivity|]; split; [vm_compute; reflexivity|]; split; vm_compute; reflexivity]|]).
  apply Forall_nil.
Qed.
Print Assumptions C14_unreduced_refuted.

(** ** C15 *)
Theorem C15_pow : forall r g f u e, fp_ok r -> 1 <= g <= maxg r -> (MX r = FEXCESS r \/ fxes f * fxes f <= MX r) -> fp_rep r g f u -> big_wf (r_cfg r) e ->
  exists f', fp_pow r f e = Some f' /\ fp_rep r 1 f' (u ^ bval (r_cfg r) e).
Proof. intros r g f u e Hf Hg Hx HA We. destruct (pow_rep r Hf g f u e Hg Hx HA We) as [f' [E1 [_ E2]]]. eauto. Qed.
Print Assumptions C15_pow.
Theorem C15_inverse : forall r g f u, field_rom r -> prime (pmod r) -> 1 <= g <= maxg r -> (special r = true -> g = 1) -> (MX r = FEXCESS r \/ fxes f * fxes f <= MX r) ->
  fp_rep r g f u -> u mod pmod r <> 0 -> exists f' w, fp_inverse r f = Some f' /\ fp_rep r 1 f' w /\ (u * w) mod pmod r = 1.
Proof.
  intros r g f u [Hf [Hfp _]] Pp Hg Hg1 Hx HA Hu. destruct (inverse_rep r Hf g f u Hg Hg1 Hfp Hx HA) as [f' [E1 E2]].
  exists f', (u ^ (pmod r - 2)). split; [exact E1|]. split; [exact E2|]. apply fermat_inv; assumption.
Qed.
Print Assumptions C15_inverse.
(** zero is mapped to zero *)
Theorem C15_inverse_zero : forall r g f u, field_rom r -> 1 <= g <= maxg r -> (special r = true -> g = 1) -> (MX r = FEXCESS r \/ fxes f * fxes f <= MX r) ->
  fp_rep r g f u -> u mod pmod r = 0 -> exists f', fp_inverse r f = Some f' /\ fp_rep r 1 f' 0.
Proof.
  intros r g f u [Hf [Hfp _]] Hg Hg1 Hx HA Hu. destruct (inverse_rep r Hf g f u Hg Hg1 Hfp Hx HA) as [f' [E1 E2]].
  exists f'. split; [exact E1|]. eapply rep_cong; [|exact E2]. pose proof (p_gt100 r Hf) as H1. clear - Hu H1.
  rewrite <- (pow_mod_l u), Hu by lia. rewrite Z.pow_0_l by lia. reflexivity.
Qed.
Print Assumptions C15_inverse_zero.
Example C15_ex : exists f f' h, fp_new_int rom_bn254_32 7 = Some f /\ fp_inverse rom_bn254_32 f = Some f' /\ fp_mul rom_bn254_32 f f' = Some h
  /\ (x <- fp_reduce rom_bn254_32 h ;; fp_redc rom_bn254_32 x) = Some (big_one (r_cfg rom_bn254_32)).
Proof. eexists. eexists. eexists. split; [vm_compute; reflexivity|]. split; [vm_compute; reflexivity|]. split; [vm_compute; reflexivity|]. vm_compute. reflexivity. Qed.

(** ** C16 *)
Theorem C16_sqrt : forall r g f u, field_rom r -> prime (pmod r) -> 1 <= g <= maxg r -> fp_rep r g f u -> (exists s, (s * s) mod pmod r = u mod pmod r) ->
  exists f' w, fp_sqrt r f = Some f' /\ fp_rep r 1 f' w /\ (w * w) mod pmod r = u mod pmod r.
Proof. intros r g f u [Hf [Hfp Hs]] Pp Hg. apply sqrt_rep; assumption. Qed.
Print Assumptions C16_sqrt.
Example C16_ex : exists f f', fp_new_int rom_ed25519_32 9 = Some f /\ fp_sqrt rom_ed25519_32 f = Some f' /\ bval (r_cfg rom_ed25519_32) (fx f') = pmod rom_ed25519_32 - 3.
Proof. eexists. eexists. split; [vm_compute; reflexivity|]. split; [vm_compute; reflexivity|]. vm_compute. reflexivity. Qed.

(** ** C49 at the field level *)
Theorem C49_fp_cmove : forall r a b d, fp_ok r -> length (fx a) = length (fx b) -> (d = 0 \/ d = 1) -> fp_cmove r a b d = Some (if d =? 1 then b else a).
Proof. intros r a b d Hf. apply fp_cmove_ok. exact Hf. Qed.
Print Assumptions C49_fp_cmove.
Theorem C49_fp_cswap : forall r a b d, fp_ok r -> length (fx a) = length (fx b) -> (d = 0 \/ d = 1) -> fp_cswap r a b d = Some (if d =? 1 then (b, a) else (a, b)).
Proof. intros r a b d Hf. apply fp_cswap_ok. exact Hf. Qed.
Print Assumptions C49_fp_cswap.
