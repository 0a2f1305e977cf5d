(** C58: FP2::sqrt.  C59: simplified_swu_fp2 of bls381. *)
From Verif Require Import Base.Word Model.Big Model.Roms Model.Fp Model.Fp2 Model.Sswu2 Spec.Bytes Spec.BigSpec Spec.RomSpec Spec.FpSpec Spec.TowerSpec Spec.TowerRep Spec.SswuSpec Spec.Sswu2Spec
  Proof.NumTheory Proof.BigVal Proof.FpBase Proof.FpOps Proof.FpSqrt Proof.FpIv Proof.FpWide Proof.Primes Proof.BlsRoms Proof.TowerRing Proof.Fp2Ops Proof.TowerInv Proof.SswuMath Proof.SswuInst Proof.MpinInst Proof.Fp2Sqrt Proof.Sswu2Math Proof.Sswu2Fp Proof.Sswu2Inst.
From Coq Require Import Lia Znumtheory.

(** On every normalised object: no panic; "true" exactly for the squares that are not real non-residues, and then the object left
    behind is a root; "false" leaves zero behind.  For bls381 and bn254, 32- and 64-bit limbs. *)
Theorem C58_sqrt r e x v : In r fp2_roms -> el2 r e x v ->
  exists b z, fp2_sqrt r x = Some (b, z)
    /\ (b = true <-> square2 (pmod r) v /\ ~ real_nonres (pmod r) v)
    /\ (b = true -> exists w, el2 r (Z.max e 2) z w /\ eq2 (pmod r) (mul2 w w) v)
    /\ (b = false -> z = fp2_new r).
Proof.
  intros HR Hx. destruct (f2_ok r HR) as [Hf [Hs [Hp [H34 [H8 Hw]]]]]. apply (el2_rep r Hf) in Hx. destruct (sqrt2_ok r Hf Hs Hp H34 H8 1 ltac:(lia) Hw Hw e x v Hx) as [b [z [E [T Fa]]]].
  exists b, z. split; [exact E|]. split.
  - split.
    + intros Hb. destruct (T Hb) as [NR [w [_ W]]]. split; [exists w; exact W|exact NR].
    + intros [S NR]. destruct b; [reflexivity|]. exfalso. destruct (Fa eq_refl) as [_ [K|K]]; [apply K; apply (norm_sq _ Hp H34); exact S|exact (NR K)].
  - split; [|intros Hb; exact (proj1 (Fa Hb))]. intros Hb. destruct (T Hb) as [_ [w [[Q|[V0 [W0 ->]]] W]]]; exists w; (split; [|exact W]); apply (el2_rep r Hf).
    + apply (rep2_mono r Hf 0 1 2); [lia|lia|lia|exact Q].
    + apply (rep2_mono r Hf 0 1 e); [lia|lia|lia|]. apply (rep2_cong r _ _ _ _ v); [|exact Hx]. eapply eq2_trans; [exact V0|apply eq2_sym; exact W0].
Qed.
Print Assumptions C58_sqrt.
(** In particular every square outside the prime field, and every square of the prime field, gets a root. *)
Theorem C58_sqrt_complete r e x v : In r fp2_roms -> el2 r e x v -> square2 (pmod r) v -> (snd v mod pmod r <> 0 \/ is_sq (pmod r) (fst v)) ->
  exists z w, fp2_sqrt r x = Some (true, z) /\ el2 r (Z.max e 2) z w /\ eq2 (pmod r) (mul2 w w) v.
Proof.
  intros HR Hx S Hn. destruct (C58_sqrt r e x v HR Hx) as [b [z [E [I [T _]]]]]. assert (Hb : b = true) by (apply I; split; [exact S|]; intros [K1 K2]; tauto).
  subst b. destruct (T eq_refl) as [w [W1 W2]]. exists z, w. split; [exact E|]. split; assumption.
Qed.
Print Assumptions C58_sqrt_complete.
(** "sqrt finds a root whenever there is one" is false: -1 = i^2 is refused. *)
Theorem C58_sqrt_refuted r : In r fp2_roms -> exists x, el2 r 2 x (-1, 0) /\ eq2 (pmod r) (mul2 i2 i2) (-1, 0) /\ fp2_sqrt r x = Some (false, fp2_new r).
Proof.
  intros HR. destruct (f2_ok r HR) as [Hf [Hs [Hp [H34 [H8 Hw]]]]]. destruct (el2_ex r Hf Hs (-1, 0)) as [x Hx]. exists x. split; [exact Hx|]. split; [split; reflexivity|].
  destruct (C58_sqrt r 2 x _ HR Hx) as [b [z [E [I [_ Fa]]]]]. destruct b; [|rewrite (Fa eq_refl) in E; exact E]. exfalso. destruct (proj1 I eq_refl) as [_ K]. apply K. split; [apply Z.mod_0_l; pose proof (p_pos r Hf); lia|].
  exact (minus1 _ Hp H34).
Qed.
Print Assumptions C58_sqrt_refuted.
(** the hypotheses of C58_sqrt_complete hold of a non-real square: 2i = (1+i)^2 *)
Example C58_ex : exists x z w, el2 rom_bls381_32 2 x (0, 2) /\ fp2_sqrt rom_bls381_32 x = Some (true, z) /\ eq2 bls381_p (mul2 w w) (0, 2).
Proof.
  assert (HR : In rom_bls381_32 fp2_roms) by (right; left; reflexivity). destruct (f2_ok _ HR) as [Hf [Hs _]]. destruct (el2_ex _ Hf Hs (0, 2)) as [x Hx]. assert (HB : pmod rom_bls381_32 = bls381_p) by (apply bls_p; right; left; reflexivity).
  destruct (C58_sqrt_complete _ 2 x _ HR Hx) as [z [w [E [_ W]]]]; [exists (1, 1); split; reflexivity|left; rewrite HB; vm_compute; discriminate|]. rewrite HB in W. exists x, z, w. split; [exact Hx|]. split; assumption.
Qed.

(** simplified_swu_fp2 (64-bit limbs).  For every u, unless the value whose root the RFC takes is a real non-residue, the code returns
    the RFC's point: the RFC's x, a root of g(x), with the sign of u. *)
Theorem C59_sswu_fp2_partial e f u : el2 rom_bls381_64 e f u -> (~ eq2 bls381_p u zero2 \/ bval (r_cfg rom_bls381_64) (fx (f2b f)) < bls381_p) -> ~ sswu2_bad bls381_p E3_A E3_B E3_Z u ->
  exists x y X Y, simplified_swu_fp2 rom_bls381_64 f = Some (x, y) /\ el2 rom_bls381_64 3 x X /\ fp_rep rom_bls381_64 3 (f2a y) (fst Y) /\ fp_rep rom_bls381_64 3 (f2b y) (snd Y) /\ sswu2 bls381_p E3_A E3_B E3_Z u X Y.
Proof.
  intros Hu Hc Hb. pose proof (bls_fp_ok _ in4) as Hf. apply (el2_rep _ Hf) in Hu. destruct (bls_sswu2 e f u Hu Hc) as [[K _]|[_ [x [y [X [Y [E [Q1 [[Q2 Q3] S]]]]]]]]]; [contradiction|].
  exists x, y, X, Y. split; [exact E|]. split; [apply (el2_rep _ Hf); exact Q1|]. split; [apply (frep_rep _ Hf 2 2 45); [lia|lia|exact Q2]|]. split; [apply (frep_rep _ Hf 2 2 45); [lia|lia|exact Q3]|exact S].
Qed.
Print Assumptions C59_sswu_fp2_partial.
(** the point is on E2' *)
Theorem C59_on_curve u X Y : sswu2 bls381_p E3_A E3_B E3_Z u X Y -> eq2 bls381_p (mul2 Y Y) (add2 (add2 (mul2 (mul2 X X) X) (mul2 (0, 240) X)) (1012, 1012)).
Proof. intros [_ [H _]]. exact H. Qed.
(** and it is determined up to the sign of a zero y *)
Theorem C59_unique u X Y X' Y' : sswu2 bls381_p E3_A E3_B E3_Z u X Y -> sswu2 bls381_p E3_A E3_B E3_Z u X' Y' -> eq2 bls381_p X X' /\ eq2 bls381_p Y Y'.
Proof.
  intros [H1 [H2 H3]] [K1 [K2 K3]].
  assert (EX : eq2 bls381_p X X'). { destruct H1 as [[S1 H1]|[S1 H1]]; destruct K1 as [[S2 K1]|[S2 K1]]; try contradiction; (eapply eq2_trans; [exact H1|apply eq2_sym; exact K1]). }
  split; [exact EX|]. pose proof (g_cong bls381_p prime_bls381_p eq_refl E3_A E3_B E3_Z z2_A z2_Z X X' EX) as EG.
  assert (EQ : eq2 bls381_p (mul2 (sub2 Y Y') (add2 Y Y')) zero2).
  { assert (E1 : eq2 bls381_p (mul2 Y Y) (mul2 Y' Y')) by (eapply eq2_trans; [exact H2|]; eapply eq2_trans; [exact EG|apply eq2_sym; exact K2]).
    apply (eq2_add _ q0 _ (neg2 (mul2 Y' Y')) _ (neg2 (mul2 Y' Y'))) in E1; [|apply eq2_refl]. replace (mul2 (sub2 Y Y') (add2 Y Y')) with (add2 (mul2 Y Y) (neg2 (mul2 Y' Y'))) by ring. replace zero2 with (add2 (mul2 Y' Y') (neg2 (mul2 Y' Y'))) by ring. exact E1. }
  assert (NZ : forall v, norm2 v mod bls381_p = 0 <-> eq2 bls381_p v zero2) by (intros v; apply (norm_z bls381_p prime_bls381_p eq_refl E3_A E3_Z z2_A z2_Z)).
  apply NZ in EQ. rewrite norm2_mul in EQ. apply (prime_mul_zero _ _ _ prime_bls381_p) in EQ.
  assert (SUB : forall a b, eq2 bls381_p (sub2 a b) zero2 -> eq2 bls381_p a b).
  { intros a b E. apply (eq2_add _ q0 _ b _ b) in E; [|apply eq2_refl]. replace (add2 (sub2 a b) b) with a in E by ring. replace (add2 zero2 b) with b in E by ring. exact E. }
  destruct EQ as [EQ|EQ]; [apply SUB, NZ; exact EQ|]. assert (EN : eq2 bls381_p Y (neg2 Y')) by (apply SUB, NZ; replace (sub2 Y (neg2 Y')) with (add2 Y Y') by ring; exact EQ).
  assert (Zs : eq2 bls381_p Y' zero2 -> eq2 bls381_p Y Y').
  { intros Z0. eapply eq2_trans; [exact EN|]. eapply eq2_trans; [|apply eq2_sym; exact Z0]. apply (eq2_neg _ q0) in Z0. replace (neg2 zero2) with zero2 in Z0 by ring. exact Z0. }
  destruct K3 as [K3|K3]; [exact (Zs K3)|]. destruct H3 as [H3|H3].
  - apply Zs. pose proof (eq2_trans _ _ _ _ (eq2_sym _ _ _ EN) H3) as Q. apply (eq2_neg _ q0) in Q. replace (neg2 (neg2 Y')) with Y' in Q by ring. replace (neg2 zero2) with zero2 in Q by ring. exact Q.
  - destruct (Z.eq_dec (norm2 Y' mod bls381_p) 0) as [D|D]; [apply Zs, NZ; exact D|]. exfalso.
    assert (D' : ~ eq2 bls381_p Y' zero2) by (intros Q; apply D, NZ; exact Q). pose proof (sgn_neg rom_bls381_64 (bls_fp_ok _ in4)) as SN. rewrite (bls_p _ in4) in SN. specialize (SN prime_bls381_p Y' D').
    assert (SC : sgn0_2 bls381_p Y = sgn0_2 bls381_p (neg2 Y')) by (destruct EN as [EN1 EN2]; unfold sgn0_2, sgn0; rewrite EN1, EN2; reflexivity). rewrite SC, SN, <- K3 in H3.
    pose proof (sgn_range rom_bls381_64) as SR. rewrite (bls_p _ in4) in SR. specialize (SR Y'). lia.
Qed.
Print Assumptions C59_unique.
(** in the excluded case the code panics ... *)
Theorem C59_sswu_fp2_panics e f u : el2 rom_bls381_64 e f u -> (~ eq2 bls381_p u zero2 \/ bval (r_cfg rom_bls381_64) (fx (f2b f)) < bls381_p) -> sswu2_bad bls381_p E3_A E3_B E3_Z u ->
  simplified_swu_fp2 rom_bls381_64 f = None.
Proof.
  intros Hu Hc Hb. pose proof (bls_fp_ok _ in4) as Hf. apply (el2_rep _ Hf) in Hu. destruct (bls_sswu2 e f u Hu Hc) as [[_ K]|[K _]]; [exact K|contradiction].
Qed.
Print Assumptions C59_sswu_fp2_panics.
(** ... which does happen: "every field element is mapped to a point" is false. *)
Theorem C59_sswu_fp2_refuted : exists f, el2 rom_bls381_64 2 f bad_u /\ ~ eq2 bls381_p bad_u zero2 /\ simplified_swu_fp2 rom_bls381_64 f = None.
Proof.
  pose proof (bls_fp_ok _ in4) as Hf. destruct (el2_ex _ Hf (bls_ns _ in4) bad_u) as [f H]. assert (N : ~ eq2 bls381_p bad_u zero2) by (intros [K _]; vm_compute in K; discriminate K).
  exists f. split; [exact H|]. split; [exact N|]. exact (C59_sswu_fp2_panics 2 f bad_u H (or_introl N) bad_bad).
Qed.
Print Assumptions C59_sswu_fp2_refuted.
(** the hypotheses of C59_sswu_fp2 hold at the exceptional element u = 0 *)
Example C59_zero : exists f, fp2_new_ints rom_bls381_64 0 0 = Some f /\ el2 rom_bls381_64 2 f zero2 /\ bval (r_cfg rom_bls381_64) (fx (f2b f)) < bls381_p /\ ~ sswu2_bad bls381_p E3_A E3_B E3_Z zero2.
Proof.
  pose proof (bls_fp_ok _ in4) as Hf. destruct (new_ints_ok rom_bls381_64 0 0 ltac:(vm_compute; reflexivity)) as [f [E Q]]. exists f. split; [exact E|]. split; [apply (el2_rep _ Hf); exact Q|]. split; [|exact zero_good].
  assert (K : option_map (fun f => bval (r_cfg rom_bls381_64) (fx (f2b f)) <? bls381_p) (fp2_new_ints rom_bls381_64 0 0) = Some true) by (vm_compute; reflexivity). rewrite E in K. injection K as K. apply Z.ltb_lt. exact K.
Qed.
