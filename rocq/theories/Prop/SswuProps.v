(** C48: simplified_swu_fp.  C55: the 11-isogeny, map_to_curve_g1 and hash_to_curve_g1 of bls381. *)
From Verif Require Import Base.Word Base.Arr Model.Big Model.Roms Model.Sha2 Model.Fp Model.Fp2 Model.Ecp Model.HashToCurve Model.Sswu Model.Iso
  Spec.Bytes Spec.BigSpec Spec.RomSpec Spec.FpSpec Spec.Sha2Spec Spec.XmdSpec Spec.CurveSpec Spec.EcpSpec Spec.SswuSpec Spec.IsoSpec Spec.HashG1Spec
  Proof.NumTheory Proof.FpBase Proof.FpOps Proof.FpIv Proof.FpSqrt Proof.Primes Proof.BlsRoms Proof.BlsInst Proof.SswuMath Proof.SswuFp Proof.IsoMath Proof.IsoProof Proof.SswuInst Proof.HashG1.
From Coq Require Import Lia Znumtheory.
Notation p := bls381_p.

(** The RFC's map lands on E' with the sign of u, for every field element u, exceptional ones included. *)
Theorem C48_map_on_curve u : let xy := sswu p E11_A E11_B E11_Z u in
  0 <= fst xy < p /\ cong p (snd xy * snd xy) (fst xy ^ 3 + E11_A * fst xy + E11_B) /\ sgn0 p (snd xy) = sgn0 p u.
Proof. cbv zeta. split; [apply sswu_range|]. apply bls_sswu_curve. Qed.
Print Assumptions C48_map_on_curve.

(** On every normalised field object f standing for u, in both ROMs, simplified_swu_fp neither overflows nor panics and returns
    the RFC's point.  The one excluded object is a zero stored as a non-zero multiple of p (no parity is defined for it). *)
Theorem C48_sswu_fp r f u : In r bls_roms -> fp_rep r 1 f u -> (u mod p <> 0 \/ bval (r_cfg r) (fx f) < p) ->
  exists x y, simplified_swu_fp r f = Some (x, y) /\ fp_rep r 1 x (fst (sswu p E11_A E11_B E11_Z u)) /\ fp_rep r 2 y (snd (sswu p E11_A E11_B E11_Z u)).
Proof.
  intros HR Hu Hc. pose proof (bls_fp_ok r HR) as Hf. destruct (bls_sswu r HR (fxes f) f u (rep_frep1 r (fxes f) f u ltac:(lia) Hu) Hc) as [x [y [E [Q1 Q2]]]].
  exists x, y. split; [exact E|]. split; [apply (frep_rep r Hf 0 1 2); [lia|lia|exact Q1]|apply (frep_rep r Hf 1 1 (FEXCESS r)); [lia|lia|exact Q2]].
Qed.
Print Assumptions C48_sswu_fp.
Theorem C48_sswu_fp_on_curve r f u : In r bls_roms -> fp_rep r 1 f u -> (u mod p <> 0 \/ bval (r_cfg r) (fx f) < p) ->
  exists x y X Y, simplified_swu_fp r f = Some (x, y) /\ fp_rep r 1 x X /\ fp_rep r 2 y Y /\ cong p (Y * Y) (X ^ 3 + E11_A * X + E11_B) /\ sgn0 p Y = sgn0 p u.
Proof.
  intros HR Hu Hc. destruct (C48_sswu_fp r f u HR Hu Hc) as [x [y [E [Q1 Q2]]]]. exists x, y. eexists _, _. split; [exact E|]. split; [exact Q1|]. split; [exact Q2|]. apply bls_sswu_curve.
Qed.
Print Assumptions C48_sswu_fp_on_curve.
(** the excluded denominators do occur: u = 0 is one, and u = 0 read from bytes meets the hypotheses *)
Example C48_zero : exists f, fp_new_int rom_bls381_32 0 = Some f /\ bval (r_cfg rom_bls381_32) (fx f) < p /\ fp_rep rom_bls381_32 1 f 0.
Proof.
  assert (Hf : fp_ok rom_bls381_32) by (apply bls_fp_ok; right; left; reflexivity). destruct (inewint rom_bls381_32 Hf 0 ltac:(vm_compute; split; [discriminate|reflexivity])) as [f [E H]]. exists f. split; [exact E|].
  split; [|apply (frep_rep rom_bls381_32 Hf 0 1 2); [lia|lia|exact H]]. assert (Q : option_map (fun f => bval (r_cfg rom_bls381_32) (fx f) <? p) (fp_new_int rom_bls381_32 0) = Some true) by (vm_compute; reflexivity). rewrite E in Q. cbn [option_map] in Q. injection Q as Q. apply Z.ltb_lt. exact Q.
Qed.

(** iso11_to_ecp (64-bit limbs): a point (u, v) of E' goes to the RFC's image on BLS12-381, except at the kernel ... *)
Theorem C55_iso11 x y u v : fp_rep rom_bls381_64 1 x u -> fp_rep rom_bls381_64 1 y v -> cong p (v * v) (u ^ 3 + E11_A * u + E11_B) -> iso11 u v <> Inf ->
  exists P, iso11_to_ecp rom_bls381_64 x y = Some P /\ w_point rom_bls381_64 P (iso11 u v).
Proof.
  intros Hx Hy Hc Hn. pose proof (bls_fp_ok _ in4) as Hf. destruct (iso_point (fxes x) (fxes y) x y u v) as [P [E [H _]]]; [apply rep_frep1; [lia|exact Hx]|apply (frep_mono _ Hf 0 1 (fxes y)); [lia|lia|lia|apply rep_frep1; [lia|exact Hy]]|exact Hc|].
  exists P. split; [exact E|exact (H Hn)].
Qed.
Print Assumptions C55_iso11.
(** ... where the object returned has all three coordinates zero and stands for no point at all, not for the identity *)
Lemma no_point P A : fp_rep rom_bls381_64 1 (ex P) 0 -> fp_rep rom_bls381_64 1 (ey P) 0 -> fp_rep rom_bls381_64 1 (ez P) 0 -> ~ w_point rom_bls381_64 P A.
Proof.
  intros [_ Hx] [_ Hy] [_ Hz] [_ [X [Y [Z [[[_ H1] [[_ H2] [_ H3]]] H]]]]]. pose proof (bls_fp_ok _ in4) as Hf. unfold cong in H.
  pose proof (den_inj _ Hf _ _ _ H2 Hy) as EY. pose proof (den_inj _ Hf _ _ _ H3 Hz) as EZ. destruct A as [|a b]; [|exact (proj1 H EZ)]. destruct H as [_ [_ H]]. exact (H EY).
Qed.
Theorem C55_iso11_kernel x y u v : fp_rep rom_bls381_64 1 x u -> fp_rep rom_bls381_64 1 y v -> cong p (v * v) (u ^ 3 + E11_A * u + E11_B) -> iso11 u v = Inf ->
  exists P, iso11_to_ecp rom_bls381_64 x y = Some P /\ forall A, ~ w_point rom_bls381_64 P A.
Proof.
  intros Hx Hy Hc Hn. pose proof (bls_fp_ok _ in4) as Hf. destruct (iso_point (fxes x) (fxes y) x y u v) as [P [E [_ H]]]; [apply rep_frep1; [lia|exact Hx]|apply (frep_mono _ Hf 0 1 (fxes y)); [lia|lia|lia|apply rep_frep1; [lia|exact Hy]]|exact Hc|].
  exists P. split; [exact E|]. intros A. destruct (H Hn) as [Z1 [Z2 Z3]]. apply no_point; assumption.
Qed.
Print Assumptions C55_iso11_kernel.

(** the composition used for hashing *)
Theorem C55_map_to_curve_g1 f u : fp_rep rom_bls381_64 1 f u -> (u mod p <> 0 \/ bval (r_cfg rom_bls381_64) (fx f) < p) -> map_g1 u <> Inf ->
  exists P, map_to_curve_g1 rom_bls381_64 f = Some P /\ w_point rom_bls381_64 P (map_g1 u).
Proof.
  intros Hu Hc Hn. destruct (map_point (fxes f) f u (rep_frep1 _ (fxes f) f u ltac:(lia) Hu) Hc) as [P [E [H _]]]. exists P. split; [exact E|exact (H Hn)].
Qed.
Print Assumptions C55_map_to_curve_g1.
(** "Every field element is mapped to a point of the curve" is false: this one should go to the identity and goes to (0 : 0 : 0). *)
Theorem C55_map_to_curve_g1_refuted : exists f P, fp_rep rom_bls381_64 1 f pole_u /\ map_g1 pole_u = Inf /\ map_to_curve_g1 rom_bls381_64 f = Some P /\ forall A, ~ w_point rom_bls381_64 P A.
Proof.
  pose proof (bls_fp_ok _ in4) as Hf. destruct (i2osp_el rom_bls381_64 Hf pole_u) as [b [f [_ [_ H]]]]; [vm_compute; split; [discriminate|reflexivity]|vm_compute; reflexivity|reflexivity|].
  assert (NZ : pole_u mod p <> 0) by (vm_compute; discriminate).
  assert (M : map_g1 pole_u = Inf). { unfold map_g1. cbv zeta. unfold iso11. rewrite pole_hit, pole_den. reflexivity. }
  destruct (map_point 2 f pole_u H (or_introl NZ)) as [P [E [_ HP]]]. exists f, P. split; [apply (frep_rep _ Hf 0 1 2); [lia|lia|exact H]|]. split; [exact M|]. split; [exact E|]. destruct (HP M) as [Z1 [Z2 Z3]]. intros A. apply no_point; assumption.
Qed.
Print Assumptions C55_map_to_curve_g1_refuted.

(** hash_to_curve_g1 (64-bit limbs): for every message and tag, unless one of the two field elements is mapped to the kernel, the
    result is the RFC's hash_to_curve point. *)
Theorem C55_hash_to_curve_g1 bd msg dst : bytes msg -> bytes dst ->
  hash_room bd SHA256 (Z.of_nat (Sha2Spec.B SHA256) + Z.of_nat (length msg) + 259) -> hash_room bd SHA256 (17 + Z.of_nat (length dst)) ->
  exists u0 u1, HTF_SHA2 SHA256 p 64 1 msg 2 dst = Some [[u0]; [u1]] /\
    (map_g1 u0 <> Inf -> map_g1 u1 <> Inf -> exists P Q, hash_to_curve_g1 rom_bls381_64 sha256 bd msg dst = Some P /\ hash_g1 msg dst Q /\ w_point rom_bls381_64 P Q).
Proof. apply hash64. Qed.
Print Assumptions C55_hash_to_curve_g1.
(** u = 0 is not mapped to the kernel *)
Example C55_zero : map_g1 0 <> Inf.
Proof.
  unfold map_g1, iso11. cbv zeta. assert (E : fst (sswu p E11_A E11_B E11_Z 0) = (E11_B * zai) mod p).
  { apply sswu_first; [|rewrite <- zai_ok; exact i_exc]. unfold sswu_x1. assert (I : inv0 p (E11_Z ^ 2 * 0 ^ 4 + E11_Z * 0 ^ 2) =? 0 = true) by (rewrite (inv0_zero p prime_bls381_p eq_refl); reflexivity). rewrite I, zai_ok. reflexivity. }
  rewrite E. assert (N : (peval E2_x_den ((E11_B * zai) mod p) mod p =? 0) = false) by (vm_compute; reflexivity). rewrite N. discriminate.
Qed.
