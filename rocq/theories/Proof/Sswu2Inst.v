(** FP2::sqrt and simplified_swu_fp2: the conditions for the shipped ROMs, and the concrete points. *)
From Verif Require Import Proof.Reciprocity.
From Verif Require Import Base.Word Model.Big Model.Roms Model.Fp Model.Fp2 Model.Sswu2 Spec.Bytes Spec.BigSpec Spec.RomSpec Spec.FpSpec Spec.TowerSpec Spec.TowerRep Spec.SswuSpec Spec.Sswu2Spec
  Proof.NumTheory Proof.BigVal Proof.RomCheck Proof.FpBase Proof.FpOps Proof.FpSqrt Proof.FpIv Proof.FpWide Proof.Primes Proof.BlsRoms Proof.BlsInst Proof.SswuMath Proof.IsoMath Proof.SswuInst Proof.MpinInst
  Proof.TowerRing Proof.Fp2Ops Proof.TowerInv Proof.Fp2Sqrt Proof.Sswu2Math Proof.Sswu2Fp.
From Coq Require Import Lia Znumtheory.
Notation q := bls381_p.
Notation r4 := rom_bls381_64.

(** FP2::sqrt *)
Definition fp2_roms : list rom := bls_roms ++ bn254_roms.
Lemma f2_ok r : In r fp2_roms -> fp_ok r /\ special r = false /\ prime (pmod r) /\ pmod r mod 4 = 3 /\ r_MOD8 r <> 5 /\ wide_ok (r_cfg r) 1 1.
Proof.
  assert (G : forall r, checkb r = true -> fp_okb r = true -> fp_ok r) by (intros x H1 H2; split; [apply checkb_ok; exact H1|exact H2]).
  intros H. apply in_app_or in H. destruct H as [H|H].
  - split; [exact (bls_fp_ok r H)|]. split; [exact (bls_ns r H)|]. rewrite (bls_p r H). split; [exact prime_bls381_p|]. split; [reflexivity|]. split; [exact (i_8 r H)|]. apply wide_okb_ok. destruct H as [<-|[<-|[]]]; vm_compute; reflexivity.
  - split; [destruct H as [<-|[<-|[]]]; apply G; vm_compute; reflexivity|]. split; [destruct H as [<-|[<-|[]]]; reflexivity|]. rewrite (bn_p r H). split; [exact prime_bn254_p|]. split; [reflexivity|].
    split; [destruct H as [<-|[<-|[]]]; discriminate|]. apply wide_okb_ok. destruct H as [<-|[<-|[]]]; vm_compute; reflexivity.
Qed.
Lemma minus1 p : prime p -> p mod 4 = 3 -> ~ is_sq p (-1).
Proof.
  intros Hp H34 S. pose proof (prime_ge_2 p Hp). assert (N1 : (-1) mod p <> 0) by (rewrite (pm1 p Hp H34); lia).
  assert (N2 : 1 mod p <> 0) by (rewrite Z.mod_1_l by lia; discriminate). pose proof (neg_sq p Hp H34 1 N2) as K. change (- (1 * 1)) with (-1) in K. rewrite (sq_pow p Hp H34 _ N1 S) in K. symmetry in K. exact (one_ne p Hp H34 K).
Qed.

(** 5 = N(Z) is a non-residue *)
Lemma J5 : J 5 q = -1.
Proof.
  pose proof (reciprocity 5 q q_pos eq_refl ltac:(lia) eq_refl ltac:(vm_compute; reflexivity)) as R.
  assert (E : J q 5 = -1) by (rewrite (J_mod q 2 5) by (vm_compute; reflexivity); vm_compute; reflexivity). rewrite E in R. rewrite hq in R. assert (Q : forall z s, z * -1 = s -> z = - s) by (intros; lia). apply Q in R. rewrite R. vm_compute. reflexivity.
Qed.
Lemma z2_Z : (norm2 E3_Z ^ ((q - 1) / 2)) mod q = (-1) mod q.
Proof. change (norm2 E3_Z) with 5. rewrite <- hq, <- J_euler, J5; [reflexivity|exact prime_bls381_p|reflexivity|vm_compute; reflexivity]. Qed.
Lemma z2_A : norm2 E3_A mod q <> 0. Proof. vm_compute. discriminate. Qed.
Lemma q0 : q <> 0. Proof. pose proof q_pos. lia. Qed.
Lemma inv2_unique a z : eq2 q (mul2 a z) one2 -> eq2 q (inv0_2 q a) z.
Proof.
  intros H. assert (Na : norm2 a mod q <> 0).
  { intros E. assert (K : norm2 (mul2 a z) mod q = norm2 one2 mod q) by (apply (norm2_cong q prime_bls381_p eq_refl E3_A E3_Z z2_A z2_Z); exact H). rewrite norm2_mul, Z.mul_mod, E, Z.mul_0_l in K by exact q0. vm_compute in K. discriminate K. }
  pose proof (inv2v_ok q prime_bls381_p a Na) as I. change (eq2 q (mul2 a (inv0_2 q a)) one2) in I. set (i := inv0_2 q a) in *. clearbody i. apply (eq2_ex q) in H; [|exact q0]. apply (eq2_ex q) in I; [|exact q0]. destruct H as [d H]. destruct I as [e I].
  apply (eq2_ex q); [exact q0|]. exists (sub2 (mul2 z e) (mul2 i d)).
  transitivity (add2 (add2 z (mul2 (k2 q) (sub2 (mul2 z e) (mul2 i d)))) (sub2 (mul2 z (sub2 (mul2 a i) (add2 one2 (mul2 (k2 q) e)))) (mul2 i (sub2 (mul2 a z) (add2 one2 (mul2 (k2 q) d)))))); [ring|]. rewrite H, I. ring.
Qed.
Definition eq2b (x y : Z2) : bool := ((fst x mod q =? fst y mod q) && (snd x mod q =? snd y mod q))%bool.
Lemma eq2b_ok x y : eq2b x y = true -> eq2 q x y.
Proof. unfold eq2b. rewrite Bool.andb_true_iff, !Z.eqb_eq. exact (fun H => H). Qed.

(** u = 0: the inverse of Z A, and a root of g at B / (Z A) *)
Definition zai2 : Z2 := (0x1ab297833e723eac0fabc0aa0e7a110618a36faaa1445aed7798865356042fe7a49c1b4d2a1c369cbb8aeb851eb7fa5, 0x35652f067ce47d581f5781541cf4220c3146df554288b5daef310ca6ac085fcf4938369a54386d397715d70a3d6ff4a).
Definition g0rt : Z2 := (0x1776b5d3dd70bb2ac6e46be0849209c9c47853350da878bdc14a5042102f1f01cbc75043b8d13d709dd5ca27f92cb390, 0x2c094c100c4f8a157767045bc04279dd04f207fbddc4de6675911b512cddacc0061215698453b5b11125516029e4d21).
Lemma x_exc : eq2 q (gx2 E3_A E3_B (mul2 E3_B (inv0_2 q (mul2 E3_Z E3_A)))) (gx2 E3_A E3_B (mul2 E3_B zai2)).
Proof. apply (g_cong q prime_bls381_p eq_refl E3_A E3_B E3_Z z2_A z2_Z). apply eq2_mul; [exact q0|apply eq2_refl|]. apply inv2_unique. apply eq2b_ok. vm_compute. reflexivity. Qed.
Lemma z2_root : square2 q (gx2 E3_A E3_B (mul2 E3_B (inv0_2 q (mul2 E3_Z E3_A)))).
Proof. exists g0rt. eapply eq2_trans; [|apply eq2_sym; exact x_exc]. apply eq2b_ok. vm_compute. reflexivity. Qed.
Lemma z2_exc : is_sq q (norm2 (gx2 E3_A E3_B (mul2 E3_B (inv0_2 q (mul2 E3_Z E3_A))))) /\ snd (gx2 E3_A E3_B (mul2 E3_B (inv0_2 q (mul2 E3_Z E3_A)))) mod q <> 0.
Proof.
  split; [apply (norm_sq q prime_bls381_p eq_refl); exact z2_root|]. destruct x_exc as [_ E]. rewrite E. vm_compute. discriminate.
Qed.

(** objects with given limbs *)
Definition frepb (r : rom) (e : Z) (f : fp) (v : Z) : bool :=
  (Nat.eqb (length (fx f)) (NLEN (r_cfg r)) && forallb (fun z => (0 <=? z) && (z <=? 2 ^ BASEBITS (r_cfg r) - 1)) (fx f) && (1 <=? fxes f) && (fxes f <=? e) && (fxes f <=? FEXCESS r)
   && (0 <=? bval (r_cfg r) (fx f)) && (bval (r_cfg r) (fx f) <? fxes f * pmod r) && (bval (r_cfg r) (fx f) mod pmod r =? (v * fK r) mod pmod r))%bool.
Lemma frepb_ok r e f v : frepb r e f v = true -> frep r 0 1 e f v.
Proof.
  unfold frepb. rewrite !Bool.andb_true_iff. intros [[[[[[[H1 H2] H3] H4] H5] H6] H7] H8]. apply Nat.eqb_eq in H1. apply Z.leb_le in H3, H4, H5, H6. apply Z.ltb_lt in H7. apply Z.eqb_eq in H8. split; [split; [exact H1|]|].
  - apply Forall_forall. intros z Hz. rewrite forallb_forall in H2. specialize (H2 z Hz). apply Bool.andb_true_iff in H2. destruct H2 as [A1 A2]. apply Z.leb_le in A1, A2. lia.
  - split; [lia|]. split; [split; assumption|exact H8].
Qed.
Lemma new_ints_ok r a b : match fp2_new_ints r a b with Some x => frepb r 2 (f2a x) a && frepb r 2 (f2b x) b | None => false end = true -> exists x, fp2_new_ints r a b = Some x /\ rep2 r 0 1 2 x (a, b).
Proof.
  destruct (fp2_new_ints r a b) as [x|]; [|discriminate]. intros H. apply Bool.andb_true_iff in H. exists x. split; [reflexivity|]. split; apply frepb_ok; tauto.
Qed.

(** the map on the 64-bit ROM *)
Lemma in4 : In r4 bls_roms. Proof. left. reflexivity. Qed.
Theorem bls_sswu2 e f u : rep2 r4 0 1 e f u -> (~ eq2 q u zero2 \/ bval (r_cfg r4) (fx (f2b f)) < q) ->
  (sswu2_bad q E3_A E3_B E3_Z u /\ simplified_swu_fp2 r4 f = None) \/
  (~ sswu2_bad q E3_A E3_B E3_Z u /\ exists x y X Y, simplified_swu_fp2 r4 f = Some (x, y) /\ rep2 r4 0 1 3 x X /\ rep2 r4 2 2 45 y Y /\ sswu2 q E3_A E3_B E3_Z u X Y).
Proof.
  intros Hr Hc. destruct (new_ints_ok r4 0 240 ltac:(vm_compute; reflexivity)) as [Ao [EA QA]]. destruct (new_ints_ok r4 1012 1012 ltac:(vm_compute; reflexivity)) as [Bo [EB QB]]. destruct (new_ints_ok r4 (-2) (-1) ltac:(vm_compute; reflexivity)) as [Zo [EZ QZ]].
  pose proof (sswu2_ok r4 (bls_fp_ok _ in4) (bls_ns _ in4)) as K. rewrite (bls_p _ in4) in K.
  refine (K prime_bls381_p eq_refl (i_8 _ in4) i_w22 (i_w _ in4) _ _ _ Ao Bo Zo E3_A E3_B E3_Z EA EB EZ QA QB QZ z2_A z2_Z z2_exc e f u Hr Hc); vm_compute; discriminate.
Qed.

(** a u whose candidate is the real non-residue 5 *)
Definition bad_u : Z2 := (0x127d7c4f15641d0bdd322f6bbd07e55f8277d1d2f67761e26c1fb455fc3e239180441bca80614271ef9f74ac7b5c384c, 0x12f59c44e89ddc60bef31a741178d2c2be7b623792eb451cae9f34ba3d4b19931684073baf1df04a1819efa767dfe84b).
Definition bad_tv : Z2 := (0x33a4361a08f4d0845be3acf84408bca0c6e289756d72134cd77af84c785a1269f94dcf10ba19be7e27201dd646e4fd8, 0x264341f6bce55d84460fb412c81fdbbb4a76afb559adfd9222c95d3e1ef5c5549ee0b0fa1cedf49148b9fd33176ed77).
Definition a2i : Z2 := (0x0, 0x11a9429135fc33048635fb811ec587857cc4389fa11fb65531d128a6ebcfa72bbb3b3776942b2eeebf63966666662c72).
Lemma bad_tv_ok : eq2 q (inv0_2 q (add2 (mul2 (zu2 E3_Z bad_u) (zu2 E3_Z bad_u)) (zu2 E3_Z bad_u))) bad_tv.
Proof. apply inv2_unique, eq2b_ok. vm_compute. reflexivity. Qed.
Lemma bad_gx : eq2 q (gx2 E3_A E3_B (sswu2_x1 q E3_A E3_B E3_Z bad_u)) (5, 0).
Proof.
  eapply eq2_trans; [apply (g_cong q prime_bls381_p eq_refl E3_A E3_B E3_Z z2_A z2_Z _ (mul2 (mul2 (neg2 E3_B) a2i) (add2 one2 bad_tv)))|apply eq2b_ok; vm_compute; reflexivity].
  unfold sswu2_x1. cbv zeta. assert (Z0 : zero2b q (inv0_2 q (add2 (mul2 (zu2 E3_Z bad_u) (zu2 E3_Z bad_u)) (zu2 E3_Z bad_u))) = false).
  { unfold zero2b. apply Bool.andb_false_intro1. destruct bad_tv_ok as [E1 E2]. rewrite E1. clear. vm_compute. reflexivity. }
  rewrite Z0. apply eq2_mul; [exact q0| |apply eq2_add; [exact q0|apply eq2_refl|exact bad_tv_ok]]. apply eq2_mul; [exact q0|apply eq2_refl|]. apply inv2_unique, eq2b_ok. vm_compute. reflexivity.
Qed.
Lemma bad_bad : sswu2_bad q E3_A E3_B E3_Z bad_u.
Proof.
  left. destruct bad_gx as [E1 E2]. assert (R : snd (gx2 E3_A E3_B (sswu2_x1 q E3_A E3_B E3_Z bad_u)) mod q = 0) by (rewrite E2; clear; vm_compute; reflexivity). split.
  - destruct (real_sq q prime_bls381_p eq_refl 5) as [w Hw]. exists w. eapply eq2_trans; [exact Hw|apply eq2_sym; exact bad_gx].
  - split; [exact R|]. intros [s Hs]. apply (nsq_Z q prime_bls381_p eq_refl E3_A E3_Z z2_A z2_Z). exists s. rewrite Hs, E1. clear. vm_compute. reflexivity.
Qed.
Lemma zero_good : ~ sswu2_bad q E3_A E3_B E3_Z zero2.
Proof.
  assert (E : sswu2_x1 q E3_A E3_B E3_Z zero2 = mul2 E3_B (inv0_2 q (mul2 E3_Z E3_A))).
  { unfold sswu2_x1. cbv zeta. rewrite (inv_z q prime_bls381_p eq_refl E3_A E3_Z z2_A z2_Z). replace (zero2b q (add2 (mul2 (zu2 E3_Z zero2) (zu2 E3_Z zero2)) (zu2 E3_Z zero2))) with true by (vm_compute; reflexivity). reflexivity. }
  intros [[_ [K _]]|[K _]]; rewrite E in K; [exact (proj2 z2_exc K)|exact (K z2_root)].
Qed.
