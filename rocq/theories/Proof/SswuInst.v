(** bls381: the side conditions of the simplified SWU map and of the isogeny, for the two ROMs. *)
From Verif Require Import Proof.Reciprocity.
From Verif Require Import Base.Word Base.Arr Model.Big Model.Roms Model.Fp Model.Fp2 Model.Ecp Model.Sswu Model.Iso Spec.Bytes Spec.BigSpec Spec.RomSpec Spec.FpSpec Spec.CurveSpec Spec.EcpSpec Spec.SswuSpec Spec.IsoSpec
  Proof.NumTheory Proof.BigVal Proof.FpBase Proof.FpOps Proof.FpSqrt Proof.FpIv Proof.FpWide Proof.CurveFacts Proof.Primes  Proof.BlsRoms Proof.BlsInst Proof.SswuMath Proof.SswuFp Proof.IsoMath Proof.IsoProof.
From Coq Require Import Lia Znumtheory.
Notation q := bls381_p.
(** 11 is a non-residue: both primes are 3 mod 4 and q = 1 mod 11 *)
Lemma hq : Z.of_nat (hlf q) = (q - 1) / 2.
Proof. unfold hlf. rewrite Z2Nat.id by (apply Z.div_pos; [pose proof q_pos; lia|lia]). vm_compute. reflexivity. Qed.
Lemma J11 : J 11 q = -1.
Proof.
  pose proof (reciprocity 11 q q_pos eq_refl ltac:(lia) eq_refl ltac:(vm_compute; reflexivity)) as R.
  assert (E : J q 11 = 1) by (rewrite (J_mod q 1 11) by (vm_compute; reflexivity); vm_compute; reflexivity). rewrite E in R. rewrite hq in R.
  rewrite Z.mul_1_r in R. rewrite R. vm_compute. reflexivity.
Qed.
Lemma i_Z : (E11_Z ^ ((q - 1) / 2)) mod q = (-1) mod q.
Proof. unfold E11_Z. rewrite <- hq, <- J_euler, J11; [reflexivity|exact prime_bls381_p|reflexivity|vm_compute; reflexivity]. Qed.
Lemma i_A : E11_A mod q <> 0. Proof. vm_compute. discriminate. Qed.
Lemma i_RA : 0 <= E11_A < q. Proof. vm_compute. split; [discriminate|reflexivity]. Qed.
Lemma i_RB : 0 <= E11_B < q. Proof. vm_compute. split; [discriminate|reflexivity]. Qed.
(** squares by their roots *)
Lemma sq_root g w : (w * w) mod q = g mod q -> is_square_b q g = true.
Proof.
  intros E. destruct (sq_cases q prime_bls381_p eq_refl g) as [[H _]|[_ [H1 H2]]]; [exact H|]. exfalso. rewrite (euler_res q w g prime_bls381_p ltac:(vm_compute; reflexivity) E H1) in H2. vm_compute in H2. discriminate H2.
Qed.
(** the inverse of Z A, and a root of g at B / (Z A) *)
Definition zai : Z := 0xaea52ae7093dc2a9262c5ed6dcecc1cc11251b33feedaefc2a209abe35260c66f61ccdb880ab37ecd9f6d4350077488.
Lemma inv_unique a z : 0 <= z < q -> (a * z) mod q = 1 -> inv0 q a = z.
Proof.
  intros Hz H. pose proof q_pos as Q0. assert (Ha : a mod q <> 0) by (intros E; rewrite Z.mul_mod, E, Z.mul_0_l, Z.mod_0_l in H by lia; discriminate H).
  pose proof (inv0_ok q prime_bls381_p eq_refl a Ha) as I. rewrite <- H in I. rewrite (Z.mul_comm a (inv0 q a)), (Z.mul_comm a z) in I. apply mod_cancel in I; [|exact Q0|apply prime_coprime; [exact prime_bls381_p|exact Ha]].
  rewrite (Z.mod_small z) in I by exact Hz. rewrite <- I. unfold inv0. rewrite Z.mod_mod by lia. reflexivity.
Qed.
Lemma zai_ok : inv0 q (E11_Z * E11_A) = zai.
Proof. apply inv_unique; vm_compute; [split; [discriminate|reflexivity]|reflexivity]. Qed.
Lemma i_exc : is_square_b q (gx q E11_A E11_B ((E11_B * inv0 q (E11_Z * E11_A)) mod q)) = true.
Proof. rewrite zai_ok. apply (sq_root _ 0x5be3446f07e910e291153e84f1dabd3dfe5c2b1080d8b6a640425c3826f2a429373f9bab7e8308f6dd10ffa11124dbc). vm_compute. reflexivity. Qed.
Lemma i_no2 : no_order2 q E11_A E11_B.
Proof.
  intros t Ht. unfold cong in Ht. rewrite Z.mod_0_l in Ht by (pose proof q_pos; lia). pose proof (ev_iso t) as E. pose proof prime_bls381_p as P. pose proof q_pos as Q0. pose proof (no_common t) as NC.
  assert (E0 : (peval E2_x_num t * peval E2_x_num t * peval E2_x_num t + 4 * (peval E2_x_den t * peval E2_x_den t * peval E2_x_den t)) mod q = 0).
  { etransitivity; [symmetry; exact E|]. rewrite Z.mul_mod, Ht by lia. reflexivity. }
  clear E Ht. revert NC E0. generalize (peval E2_x_num t) (peval E2_x_den t). intros a d NC E0.
  destruct (Z.eq_dec (d mod q) 0) as [D|D].
  - assert (A3 : (a * a * a) mod q = 0). { rewrite <- E0. rewrite <- (Z.add_0_r (a * a * a)) at 1. apply cg_add; [reflexivity|]. replace (4 * (d * d * d)) with (4 * d * d * d) by ring. rewrite (Z.mul_mod (4 * d * d)), D, Z.mul_0_r by lia. reflexivity. }
    apply (prime_mul_zero q _ _ P) in A3. destruct A3 as [A3|A3]; [apply (prime_mul_zero q _ _ P) in A3; destruct A3 as [A3|A3]|]; exact (NC A3 D).
  - pose proof (fermat_inv q d P D) as I. revert I. generalize (d ^ (q - 2)). intros i I. apply (no2_bls381 (a * i)). unfold cong. rewrite Z.mod_0_l by lia. rewrite Z.mul_0_l, Z.add_0_r.
    transitivity ((i * i * i * (a * a * a + 4 * (d * d * d))) mod q); [|rewrite Z.mul_mod, E0, Z.mul_0_r by lia; apply Z.mod_0_l; lia].
    replace (i * i * i * (a * a * a + 4 * (d * d * d))) with (a * i * (a * i) * (a * i) + 4 * (d * i * (d * i) * (d * i))) by ring. apply cg_add; [reflexivity|]. replace 4 with (4 * (1 * 1 * 1)) at 1 by ring. apply cg_mul; [reflexivity|].
    apply cg_mul; [apply cg_mul|]; rewrite I; apply Z.mod_small; split; try lia; vm_compute; reflexivity.
Qed.
Section R.
Variable r : rom.
Hypothesis HR : In r bls_roms.
Lemma i_34 : pmod r mod 4 = 3. Proof. rewrite (bls_p r HR). reflexivity. Qed.
Lemma i_8 : r_MOD8 r <> 5. Proof. destruct HR as [<-|[<-|[]]]; discriminate. Qed.
Lemma i_fe : 16 <= FEXCESS r. Proof. destruct HR as [<-|[<-|[]]]; vm_compute; discriminate. Qed.
Lemma i_w : wide_ok (r_cfg r) 2 1. Proof. apply wide_okb_ok. destruct HR as [<-|[<-|[]]]; vm_compute; reflexivity. Qed.
Lemma i_kok : forallb (kokb r) ISO11_XNUM && forallb (kokb r) ISO11_XDEN && forallb (kokb r) ISO11_YNUM && forallb (kokb r) ISO11_YDEN = true.
Proof. destruct HR as [<-|[<-|[]]]; vm_compute; reflexivity. Qed.
Theorem bls_sswu e f u : frep r 0 1 e f u -> (u mod q <> 0 \/ bval (r_cfg r) (fx f) < q) ->
  exists x y, simplified_swu_fp r f = Some (x, y) /\ frep r 0 1 2 x (fst (sswu q E11_A E11_B E11_Z u)) /\ frep r 1 1 (FEXCESS r) y (snd (sswu q E11_A E11_B E11_Z u)).
Proof.
  pose proof (bls_p r HR) as P. rewrite <- P. intros H1 H2.
  apply (sswu_fp_ok r (bls_fp_ok r HR) (bls_ns r HR) (bls_prime r HR) i_34 i_8 i_w i_fe (bls_mb r HR)) with (e := e); rewrite ?P; try assumption; try (rewrite P in H2; assumption).
  all: first [exact i_RA|exact i_RB|exact i_A|exact i_Z|exact i_exc|exact i_no2].
Qed.
End R.
Lemma i_w22 : wide_ok (r_cfg rom_bls381_64) 2 2. Proof. apply wide_okb_ok. vm_compute. reflexivity. Qed.
Lemma bls_sswu_curve u : let xy := sswu q E11_A E11_B E11_Z u in (snd xy * snd xy) mod q = (fst xy ^ 3 + E11_A * fst xy + E11_B) mod q /\ sgn0 q (snd xy) = sgn0 q u.
Proof. apply (sswu_ok q prime_bls381_p eq_refl); [exact i_A|exact i_Z|exact i_exc|exact i_no2]. Qed.
Lemma sswu_fst p A B Z u : 0 < p -> 0 <= fst (sswu p A B Z u) < p.
Proof.
  intros Hp. unfold sswu. destruct (is_square_b p _); cbn [fst]; [|apply Z.mod_pos_bound; exact Hp]. unfold sswu_x1. destruct (_ =? 0); apply Z.mod_pos_bound; exact Hp.
Qed.
Lemma sswu_range u : 0 <= fst (sswu q E11_A E11_B E11_Z u) < q.
Proof. apply sswu_fst. exact q_pos. Qed.
(** the first candidate when its right-hand side is a square *)
Lemma sswu_first p A B Z u x : sswu_x1 p A B Z u = x -> is_square_b p (gx p A B x) = true -> fst (sswu p A B Z u) = x.
Proof. intros <- H. unfold sswu. rewrite H. reflexivity. Qed.
Lemma x1_unique p A B Z u x : prime p -> p mod 4 = 3 -> A mod p <> 0 -> 0 <= x < p -> let d := Z ^ 2 * u ^ 4 + Z * u ^ 2 in d mod p <> 0 -> (A * x * d) mod p = (- (B * (1 + d))) mod p -> sswu_x1 p A B Z u = x.
Proof.
  intros Hp H34 HA Hx d Hd E. pose proof (x1_eq p Hp H34 A B Z HA u Hd) as E1. cbv zeta in E1. fold d in E1. rewrite <- E in E1.
  assert (0 < p) by lia. assert (R : 0 <= sswu_x1 p A B Z u < p) by (unfold sswu_x1; destruct (_ =? 0); apply Z.mod_pos_bound; assumption).
  replace (A * sswu_x1 p A B Z u * d) with (sswu_x1 p A B Z u * (A * d)) in E1 by ring. replace (A * x * d) with (x * (A * d)) in E1 by ring.
  apply mod_cancel in E1; [|assumption|]. { rewrite !Z.mod_small in E1 by assumption. exact E1. }
  apply prime_coprime; [exact Hp|]. intros Q. apply (prime_mul_zero p _ _ Hp) in Q. destruct Q; contradiction.
Qed.
(** a rational point of the kernel and a field element that maps to it *)
Definition pole_x : Z := 0x10ef325dd1e98bdf0d97a4c6b7f968ed7f31f2fbff088acb39d5319cfc261ea18773405f325612742f0c5d90634bcf4.
Definition pole_u : Z := 0x1377c0192d99508a317127abf17c64205c7aad448380027efb47ae73ea231dbd6ecd3f2841b63d309c35bb8fd13e48f0.
Lemma pole_hit : fst (sswu q E11_A E11_B E11_Z pole_u) = pole_x.
Proof.
  apply sswu_first.
  - apply (x1_unique q E11_A E11_B E11_Z pole_u pole_x prime_bls381_p eq_refl i_A); [vm_compute; split; [discriminate|reflexivity]|vm_compute; discriminate|vm_compute; reflexivity].
  - apply (sq_root _ 0xeb3efc0a8592166adb221f4b9158d9ff0d160ce6a2cc1a280b3ec28c01870fa13ca7cddd7ba78f6cd54fe36375cd5fd). vm_compute. reflexivity.
Qed.
Lemma pole_den : peval E2_x_den pole_x mod q = 0. Proof. vm_compute. reflexivity. Qed.
