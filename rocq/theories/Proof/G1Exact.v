(** The G1 subgroup check accepts nothing but multiples of the generator. *)
From Verif Require Import Base.Word Base.Arr Model.Big Model.Roms Model.Fp Model.Ecp Model.G1Mul Spec.BigSpec Spec.RomSpec Spec.FpSpec Spec.CurveSpec Spec.EcpSpec
  Proof.NumTheory Proof.FieldP Proof.Weier Proof.FpBase Proof.Primes Proof.EcpW Proof.EcpBridge Proof.EcpMul Proof.EcpInst Proof.EcGroupInst Proof.PrimeBlsN Proof.BlsRoms Proof.BlsInst Proof.Glv Proof.G1Cert Proof.KerCount Proof.G1MulProof.
From Coq Require Import Lia Znumtheory.

Section Abs.
Variable G : Type.
Variables (g0 : G) (gadd : G -> G -> G) (gneg : G -> G) (on : G -> Prop).
Hypothesis HG : cgroup G g0 gadd gneg on.
Notation zt := (ztimes G g0 gadd gneg).
Variable ph : G -> G.
Hypothesis ph_on : forall A, on A -> on (ph A).
Hypothesis ph_0 : ph g0 = g0.
Hypothesis ph_sum : forall A B, on A -> on B -> gadd (ph A) (ph B) = ph (gadd A B).
Hypothesis ph_neg : forall A, ph (gneg A) = gneg (ph A).
Hypothesis ph_three : forall A, on A -> gadd A (ph A) = gneg (ph (ph A)).
Let O0 := cg_0 _ _ _ _ _ HG. Let OA := cg_add _ _ _ _ _ HG. Let ON := cg_neg _ _ _ _ _ HG.
Let ZO : forall z A, on A -> on (zt z A). Proof. exact (ztimes_on _ _ _ _ _ HG). Qed.
Hint Resolve O0 OA ON ZO ph_on : core.
(** A = m ph(A) forces ph(A) = - (m + 1) A *)
Lemma endo_eigen A m : on A -> gadd A (gneg (zt m (ph A))) = g0 -> ph A = zt (- (m + 1)) A.
Proof.
  intros H E. assert (E1 : A = zt m (ph A)).
  { pose proof (neg_uniq _ _ _ _ _ HG A _ H (ON _ (ZO m _ (ph_on _ H))) E) as Q. transitivity (gneg (gneg A)); [symmetry; exact (neg_neg _ _ _ _ _ HG A H)|]. rewrite <- Q. exact (neg_neg _ _ _ _ _ HG _ (ZO m _ (ph_on _ H))). }
  assert (E2 : ph (ph A) = gneg (gadd A (ph A))) by (rewrite ph_three, (neg_neg _ _ _ _ _ HG) by auto; reflexivity).
  assert (E3 : ph A = zt m (ph (ph A))) by (rewrite <- (ph_times _ _ _ _ _ HG ph ph_0 ph_sum ph_neg m (ph A)) by auto; f_equal; exact E1).
  rewrite (ztimes_opp _ _ _ _ _ HG) by exact H.
  rewrite E3, E2. transitivity (zt m (zt (-1) (gadd A (ph A)))).
  - f_equal. change (-1) with (- (1)). rewrite (ztimes_opp _ _ _ _ _ HG), (ztimes_1 _ _ _ _ _ HG) by auto. reflexivity.
  - rewrite (ztimes_mul _ _ _ _ _ HG) by auto. replace (m * -1) with (- m) by ring. rewrite (ztimes_opp _ _ _ _ _ HG), (ztimes_sum _ _ _ _ _ HG), <- E1, (ztimes_add _ _ _ _ _ HG), (ztimes_1 _ _ _ _ _ HG) by auto. reflexivity.
Qed.
Lemma eigen_lin g A l i j : on g -> on A -> ph g = zt l g -> ph A = zt l A -> ph (lin G g0 gadd gneg g A i j) = zt l (lin G g0 gadd gneg g A i j).
Proof.
  intros Og OAA Eg EA. unfold lin. rewrite <- ph_sum, !(ph_times _ _ _ _ _ HG ph ph_0 ph_sum ph_neg), Eg, EA, (ztimes_sum _ _ _ _ _ HG), !(ztimes_mul _ _ _ _ _ HG) by auto.
  rewrite (Z.mul_comm i l), (Z.mul_comm j l). reflexivity.
Qed.
End Abs.

Section S.
Variables (r : rom) (bnx cru : list Z).
Hypothesis HI : In (r, bnx, cru) g1_roms.
Notation p := (pmod r).
Let HR : In r bls_roms := g1_bls r bnx cru HI.
Let Hw : w_ok r := bls_w r HR.
Let Hf : fp_ok r := bls_fp_ok r HR.
Let Hp : prime p := bls_prime r HR.
Let Hn : no_order2 p (cA r) (cB r) := bls_no2 r HR.
Let P3 : 3 < p := p_gt3 r Hf.
Notation ka := (mk p (cA r)).
Notation kb := (mk p (cB r)).
Notation kbt := (mk p g1_beta).
Let WG := w_group r Hw Hp Hn.
Notation zt := (ztimes (apt p) (AInf p) (asum p ka) (aneg p)).
Notation ph := (phi p kbt).
Let HkA : ka = f0 p. Proof. rewrite (proj1 (bls_AB r HR)). reflexivity. Qed.
Let K2 : (kbt * kbt + kbt + f1 p)%F = f0 p.
Proof. unfold f1, f0. rewrite <- !mk_mul, <- !mk_add by exact Hp. apply mk_eq. rewrite (bls_p r HR). vm_compute. reflexivity. Qed.
Let KN := kno2' p Hp P3 (cA r) (cB r) Hn.
Let A1 := phi_on p Hp ka kb kbt HkA K2.
Let A2 := phi_sum p Hp P3 ka kb kbt HkA KN K2.
Let A3 := phi_neg p kbt.
Let A4 := phi_three p Hp P3 ka kb kbt HkA KN K2.
Notation Gp := (ak p (Aff (gx r) (gy r))).
Let Og : aon p ka kb Gp := on_ak p Hp _ _ _ (g_on r bnx cru HI).
Add Ring Kr2 : (F_ring p Hp).
Notation T3 := (AAff p (mk p 0) (mk p 2)).
Lemma t3_crv : crv p ka kb (mk p 0) (mk p 2).
Proof. unfold crv. rewrite <- !mk_mul, <- !mk_add by exact Hp. apply mk_eq. rewrite (proj1 (bls_AB r HR)), (proj2 (bls_AB r HR)). reflexivity. Qed.
Lemma t3_two : zt 2 T3 = aneg p T3.
Proof.
  pose proof t3_crv as O. rewrite (ztimes_2 _ _ _ _ _ WG) by exact O. change T3 with (ak p (Aff 0 2)).
  assert (OT : on_w p (cA r) (cB r) (Aff 0 2)) by (rewrite (bls_p r HR), (proj1 (bls_AB r HR)), (proj2 (bls_AB r HR)); vm_compute; intuition discriminate).
  rewrite <- (ak_neg p Hp (cA r) (cB r) (Aff 0 2) OT). pose proof (spec_sum_iff p Hp P3 (cA r) (cB r) (Aff 0 2) (Aff 0 2) (w_neg p (Aff 0 2)) OT OT) as S.
  assert (E : w_sum p (cA r) (Aff 0 2) (Aff 0 2) (w_neg p (Aff 0 2))).
  { rewrite (bls_p r HR), (proj1 (bls_AB r HR)). change (w_neg bls381_p (Aff 0 2)) with (Aff ((0 * 0 - 0 - 0) mod bls381_p) ((0 * (0 - (0 * 0 - 0 - 0)) - 2) mod bls381_p)). apply ws_tangent; vm_compute; [discriminate|reflexivity]. }
  apply S in E. rewrite E. symmetry. apply ak_sp. exact Hp.
Qed.
Lemma t3_x2 : zt g1_x2 T3 = T3.
Proof.
  pose proof t3_crv as O. assert (E3 : zt 3 T3 = AInf p).
  { change 3 with (2 + 1). rewrite (ztimes_add _ _ _ _ _ WG), t3_two, (ztimes_1 _ _ _ _ _ WG) by exact O. apply (inv_l _ _ _ _ _ WG). exact O. }
  replace g1_x2 with (1 + g1_x2 / 3 * 3) by reflexivity. rewrite (ztimes_add _ _ _ _ _ WG), <- (ztimes_mul _ _ _ _ _ WG (g1_x2 / 3)), E3, (zt_zero _ _ _ _ _ WG), (ztimes_1 _ _ _ _ _ WG) by exact O.
  apply (id_r _ _ _ _ _ WG). exact O.
Qed.
Lemma two_ne : mk p 2 <> (- mk p 2)%F.
Proof. rewrite <- mk_opp by exact Hp. intros E. apply mk_eq in E. rewrite (bls_p r HR) in E. vm_compute in E. discriminate. Qed.
Lemma sz : 8 * mdeg (Z.to_pos g1_x2) + 20 <= bls381_n * ((bls381_n - 1) / 2).
Proof. vm_compute. discriminate. Qed.
Section Core.
Variables n X2 : Z.
Hypothesis Pn : prime n.
Hypothesis X2p : 0 < X2.
Hypothesis SZ : 8 * mdeg (Z.to_pos X2) + 20 <= n * ((n - 1) / 2).
Hypothesis T3X : zt X2 T3 = T3.
Hypothesis NG : zt n Gp = AInf p.
Hypothesis EG : ph Gp = zt (- X2) Gp.
Lemma core A : aon p ka kb A -> zt n A = AInf p -> asum p ka A (aneg p (zt (X2 - 1) (ph A))) = AInf p -> exists k, A = zt k Gp.
Proof.
  intros OA NA E.
  pose proof (endo_eigen _ _ _ _ _ WG ph A1 eq_refl A2 A3 A4 A _ OA E) as EA.
  assert (EQ : - (X2 - 1 + 1) = - X2) by ring. rewrite EQ in EA. clear EQ E.
  assert (DEC : forall k, {A = zt k Gp} + {A <> zt k Gp}).
  { intros k. generalize (zt k Gp) as B. intros B. destruct A as [|x y], B as [|x' y']; [left; reflexivity|right; discriminate|right; discriminate|].
    destruct (F_dec p x x') as [->|N]; [|right; congruence]. destruct (F_dec p y y') as [->|N]; [left; reflexivity|right; congruence]. }
  assert (NN : ~ ~ exists k, A = zt k Gp).
  { intros NI. assert (KH : forall i j x y, lin (apt p) (AInf p) (asum p ka) (aneg p) Gp A i j = AAff p x y -> exists x', zt (Zpos (Z.to_pos X2)) (AAff p x y) = AAff p x' (- y)%F).
    { intros i j x y EL. pose proof (eigen_lin _ _ _ _ _ WG ph eq_refl A2 A3 Gp A (- X2) i j Og OA EG EA) as Q. rewrite EL in Q. cbn [phi] in Q.
      assert (OL : aon p ka kb (AAff p x y)) by (rewrite <- EL; apply (cg_add _ _ _ _ _ WG); apply (ztimes_on _ _ _ _ _ WG); assumption).
      exists (kbt * x)%F. rewrite Z2Pos.id by exact X2p. rewrite <- (Z.opp_involutive X2). rewrite (ztimes_opp _ _ _ _ _ WG), <- Q by exact OL. reflexivity. }
    assert (T3Y : zt (Zpos (Z.to_pos X2)) T3 = T3) by (rewrite Z2Pos.id by exact X2p; exact T3X).
    exact (too_many p Hp P3 ka kb KN WG n Gp A (Z.to_pos X2) Pn Og OA ltac:(discriminate) NG NA KH (fun k Q => NI (ex_intro _ k Q)) (mk p 0) (mk p 2) (mk p 0) (mk p 2) t3_crv T3Y two_ne SZ). }
  assert (FIN : forall N : nat, {k | A = zt k Gp} + {forall k, 0 <= k < Z.of_nat N -> A <> zt k Gp}).
  { induction N as [|N [IH|IH]]; [right; intros; lia|left; exact IH|]. destruct (DEC (Z.of_nat N)) as [D|D]; [left; exists (Z.of_nat N); exact D|]. right. intros k Hk. destruct (Z.eq_dec k (Z.of_nat N)) as [->|Q]; [exact D|]. apply IH. lia. }
  pose proof (prime_ge_2 _ Pn) as N2.
  destruct (FIN (Z.to_nat n)) as [[k K]|NO]; [exists k; exact K|]. exfalso. apply NN. intros [k K].
  apply (NO (k mod n)).
  - rewrite Z2Nat.id by lia. apply Z.mod_pos_bound. lia.
  - rewrite K. rewrite (Z.div_mod k n) at 1 by lia. rewrite Z.mul_comm, (ztimes_add _ _ _ _ _ WG), <- (ztimes_mul _ _ _ _ _ WG (k / n)), NG, (zt_zero _ _ _ _ _ WG) by exact Og.
    apply (cg_id _ _ _ _ _ WG). apply (ztimes_on _ _ _ _ _ WG). exact Og.
Qed.
End Core.
Theorem sub_exact P A : wden r P A -> subgroup_check_g1 r bnx cru P = Some true -> exists k, A = zt k Gp.
Proof.
  intros HP H. pose proof (wden_on _ _ _ HP) as OA. pose proof (sub_sound r bnx cru HI P A HP H) as NA.
  destruct (sub_check r bnx cru HI P A HP) as [bb [B1 B2]]. rewrite B1 in H. injection H as ->. pose proof (proj1 B2 eq_refl) as E.
  apply (core bls381_n g1_x2); [exact prime_bls381_order|reflexivity|exact sz|exact t3_x2|exact (g_order r bnx cru HI)|exact (g_eigen r bnx cru HI)|exact OA|exact NA|exact E].
Qed.
End S.
