(** g1mul and the G1 subgroup check on bls381. *)
From Verif Require Import Base.Word Base.Arr Model.Big Model.Roms Model.Fp Model.Ecp Model.G1Mul Spec.BigSpec Spec.RomSpec Spec.FpSpec Spec.CurveSpec Spec.EcpSpec
  Proof.BigVal Proof.BigBytes Proof.BigMod Proof.BigInv Proof.BigMisc Proof.NumTheory Proof.FieldP Proof.Weier Proof.FpBase Proof.FpOps Proof.FpIv Proof.RomCheck Proof.Primes Proof.EcpOps Proof.EcpW Proof.EcpBridge Proof.EcpMul Proof.EcpInst
  Proof.EcpCodec3 Proof.OrderCert Proof.EcGroupInst Proof.BlsRoms Proof.BlsInst Proof.Glv Proof.SlopesBls Proof.G1Cert.
From Coq Require Import Lia Znumtheory.

Definition g1_roms : list (rom * list Z * list Z) := [(rom_bls381_64, bnx_bls381_64, cru_bls381_64); (rom_bls381_32, bnx_bls381_32, cru_bls381_32)].
Definition bits (v : Z) : Z := if v =? 0 then 0 else Z.log2 v + 1.
(** the multiplier the code uses in place of v *)
Definition sh (q v : Z) : Z := if bits (q - v mod q) <? bits v then - (q - v mod q) else v.

Lemma g1_bls r bnx cru : In (r, bnx, cru) g1_roms -> In r bls_roms.
Proof. intros HI. destruct HI as [E|[E|[]]]; injection E as <- _ _; [left|right; left]; reflexivity. Qed.
Lemma bnx_ok r bnx cru : In (r, bnx, cru) g1_roms -> big_wf (r_cfg r) bnx /\ val (BASEBITS (r_cfg r)) bnx = 0xd201000000010000.
Proof. intros HI. destruct HI as [E|[E|[]]]; injection E as <- <- <-; (split; [apply big_wfb_ok|]; vm_compute; reflexivity). Qed.
Lemma cru_ok r bnx cru : In (r, bnx, cru) g1_roms -> big_wf (r_cfg r) cru /\ val (BASEBITS (r_cfg r)) cru = g1_beta.
Proof. intros HI. destruct HI as [E|[E|[]]]; injection E as <- <- <-; (split; [apply big_wfb_ok|]; vm_compute; reflexivity). Qed.
Lemma sizes r bnx cru : In (r, bnx, cru) g1_roms -> g1_x2 < bmax (r_cfg r) /\ 2 * bls381_n + 4 < 2 ^ (NBITS r - 4).
Proof. intros HI. destruct HI as [E|[E|[]]]; injection E as <- <- <-; split; vm_compute; reflexivity. Qed.

Section S.
Variables (r : rom) (bnx cru : list Z).
Hypothesis HI : In (r, bnx, cru) g1_roms.
Notation c := (r_cfg r).
Notation V := (val (BASEBITS c)).
Notation p := (pmod r).
Let HR : In r bls_roms := g1_bls r bnx cru HI.
Let Hw : w_ok r := bls_w r HR.
Let Hf : fp_ok r := bls_fp_ok r HR.
Let Hok : cfg_ok c := ff_ok r (fp_ok_facts r Hf).
Let Hp : prime p := bls_prime r HR.
Let Hn : no_order2 p (cA r) (cB r) := bls_no2 r HR.
Let P3 : 3 < p := p_gt3 r Hf.
Notation ka := (mk p (cA r)).
Notation kb := (mk p (cB r)).
Notation kbt := (mk p g1_beta).
Notation q := bls381_n.
Let WG := w_group r Hw Hp Hn.
Let WP := w_pops r Hw Hp Hn.
Notation zt := (ztimes (apt p) (AInf p) (asum p ka) (aneg p)).
Notation ph := (phi p kbt).
Lemma map2o_swap (f : Z -> Z -> option Z) u : forall v, map2o f u v = map2o (fun x y => f y x) v u.
Proof. induction u as [|x u IH]; intros [|y v]; cbn; try reflexivity. rewrite IH. reflexivity. Qed.
Lemma nbits_n w s : norm c w = Some s -> big_wf c s -> nbits c w = Some (bits (V s)).
Proof. intros H [_ C]. apply (nbits_spec c Hok); assumption. Qed.
Lemma rmod_norm w s m : norm c w = Some s -> big_wf c s -> rmod c w m = rmod c s m.
Proof. intros H W. unfold rmod. rewrite H, (norm_wf c Hok s W). reflexivity. Qed.
Lemma qV : big_wf c (r_ORDER r) /\ V (r_ORDER r) = q. Proof. exact (bls_order r HR). Qed.
Lemma shorter_ok w s : norm c w = Some s -> big_wf c s -> V s <= q ->
  exists b t t', shorter r w = Some (b, t) /\ norm c t = Some t' /\ big_wf c t' /\ V t' <= q /\ (if b then - V t' else V t') = sh q (V s).
Proof.
  intros Hnm W L. destruct qV as [QW QV]. assert (Q0 : 0 < q) by reflexivity. unfold shorter. rewrite (nbits_n w s Hnm W). cbn [bind]. unfold modneg. rewrite (rmod_norm w s _ Hnm W).
  destruct (rmod_spec c Hok s (r_ORDER r) W QW) as [m [M1 [M2 M3]]]; [rewrite QV; exact Q0|]. rewrite M1. cbn [bind]. rewrite QV in M3. pose proof (Z.mod_pos_bound (V s) q Q0).
  destruct (sub_wf c Hok (r_ORDER r) m QW M2) as [t [t' [T1 [T2 [T3 T4]]]]]; [rewrite QV, M3; lia|]. rewrite T1. cbn [bind]. rewrite (nbits_n t t' T2 T3). cbn [bind]. rewrite QV, M3 in T4.
  unfold sh. rewrite <- T4. destruct (bits (V t') <? bits (V s)).
  - exists true, t, t'. repeat split; try assumption; try (apply T3). lia.
  - exists false, w, s. repeat split; try assumption; try (apply W).
Qed.
Lemma glv_ok e : big_wf c e -> V e < (q + 1) * g1_x2 ->
  exists u0 u1 s1, glv r bnx e = Some (u0, u1) /\ big_wf c u0 /\ V u0 = V e mod g1_x2 /\ norm c u1 = Some s1 /\ big_wf c s1 /\ V s1 = q - V e / g1_x2.
Proof.
  intros We Le. destruct qV as [QW QV]. destruct (bnx_ok r bnx cru HI) as [BW BV]. destruct (sizes r bnx cru HI) as [S1 _]. unfold glv.
  destruct (smul_spec c Hok bnx bnx BW BW) as [x2 [X1 [X2 X3]]]. rewrite X1. cbn [bind]. rewrite BV in X3. change (0xd201000000010000 * 0xd201000000010000) with g1_x2 in X3. rewrite Z.mod_small in X3 by (split; [discriminate|exact S1]).
  assert (P0 : 0 < g1_x2) by reflexivity.
  destruct (rmod_spec c Hok e x2 We X2) as [u0 [U1 [U2 U3]]]; [rewrite X3; exact P0|]. rewrite U1. cbn [bind].
  destruct (div_spec c Hok e x2 We X2) as [u1 [D1 [D2 D3]]]; [rewrite X3; exact P0|]. rewrite D1. cbn [bind]. rewrite X3 in U3, D3.
  assert (DL : V e / g1_x2 <= q). { assert (V e / g1_x2 < q + 1) by (apply Z.div_lt_upper_bound; [exact P0|rewrite Z.mul_comm; exact Le]). lia. }
  unfold rsub. rewrite map2o_swap. change (map2o (fun x y => chk (CHUNK c) (x - y)) (r_ORDER r) u1) with (sub c (r_ORDER r) u1).
  destruct (sub_wf c Hok (r_ORDER r) u1 QW D2) as [t [t' [T1 [T2 [T3 T4]]]]]; [rewrite QV, D3; exact DL|]. rewrite T1. cbn [bind].
  exists u0, t, t'. rewrite QV, D3 in T4. repeat split; try assumption; try (apply U2); try (apply T3).
Qed.
Let HkA : ka = f0 p. Proof. rewrite (proj1 (bls_AB r HR)). reflexivity. Qed.
Let K2 : (kbt * kbt + kbt + f1 p)%F = f0 p.
Proof. unfold f1, f0. rewrite <- !mk_mul, <- !mk_add by exact Hp. apply mk_eq. rewrite (bls_p r HR). vm_compute. reflexivity. Qed.
Let KN := kno2' p Hp P3 (cA r) (cB r) Hn.
Add Ring Kr : (F_ring p Hp).
Lemma mulx_ok P A k : wden r P A -> frep r 0 1 (FEXCESS r) k g1_beta -> exists R, ecp_mulx r P k = Some R /\ wden r R (ph A).
Proof.
  intros [v [[PX [PY PZ]] [D OA]]] Hk. unfold ecp_mulx. destruct (imulf r Hf _ _ _ _ _ _ (proj1 (proj2 Hw)) PX Hk) as [x [E1 E2]]. rewrite E1. cbn [bind].
  eexists. split; [reflexivity|]. destruct v as [[X Y] Z]. cbn [fst snd] in *. exists (X * g1_beta, Y, Z). split.
  - split; [|split]; cbn [ex ey ez fst snd]; [|exact PY|exact PZ]. apply (rep1f r). eapply (frep1 r Hw). exact E2.
  - split; [|apply (phi_on p Hp ka kb kbt HkA K2); exact OA]. destruct A as [|x0 y0]; cbn [phi kk kden] in *; rewrite (mk_mul p Hp).
    + destruct D as [-> D]. split; [|exact D]. unfold f0. rewrite <- mk_mul by exact Hp. reflexivity.
    + destruct D as [D1 [D2 D3]]. split; [exact D1|]. split; [|exact D3]. rewrite D2. ring.
Qed.
Lemma negif_ok b P A : wden r P A -> exists R, neg_if r b P = Some R /\ wden r R (if b then aneg p A else A).
Proof. intros H. destruct b; [exact (po_neg _ _ _ _ _ _ _ _ WP P A H)|]. exists P. auto. Qed.
Lemma zt_gneg z A : aon p ka kb A -> zt z (aneg p A) = zt (- z) A.
Proof.
  intros O. assert (E : aneg p A = zt (-1) A) by (change (-1) with (- (1)); rewrite (ztimes_opp _ _ _ _ _ WG), (ztimes_1 _ _ _ _ _ WG) by exact O; reflexivity).
  rewrite E, (ztimes_mul _ _ _ _ _ WG) by exact O. f_equal. ring.
Qed.
Theorem g1mul_den P A e : wden r P A -> big_wf c e -> V e < (q + 1) * g1_x2 ->
  exists R, g1mul r bnx cru P e = Some R /\
    let C := asum p ka (zt (sh q (V e mod g1_x2)) A) (zt (sh q (q - V e / g1_x2)) (ph A)) in wden r R C /\ wnrm r R C.
Proof.
  intros HP We Le. pose proof (wden_on _ _ _ HP) as OA. unfold g1mul. destruct (po_affine _ _ _ _ _ _ _ _ WP P A HP) as [Q [Q1 [Q2 _]]]. rewrite Q1. cbn [bind].
  destruct (cru_ok r bnx cru HI) as [CW CV]. unfold fp_new_big. destruct (nres_rep r Hf cru CW) as [k [E1 [E2 E3]]]; [intros E; rewrite (bls_ns r HR) in E; discriminate|]. rewrite E1. cbn [bind].
  unfold bval in E3. rewrite CV in E3. destruct (glv_ok e We Le) as [u0 [u1 [s1 [G1 [G2 [G3 [G4 [G5 G6]]]]]]]]. rewrite G1. cbn [bind fst snd].
  destruct (mulx_ok Q A k Q2 (rep1f r k _ E3)) as [Q' [Q3 Q4]]. rewrite Q3. cbn [bind]. clear Q Q1 Q2 Q3.
  assert (B0 : 0 <= V e) by (pose proof (brange c Hok e We); lia). assert (X0 : 0 < g1_x2) by reflexivity.
  pose proof (Z.mod_pos_bound (V e) _ X0) as M0. pose proof (Z.div_pos (V e) _ B0 X0) as D0. assert (XQ : g1_x2 <= q) by (vm_compute; discriminate).
  destruct (shorter_ok u0 u0 (norm_wf c Hok u0 G2) G2) as [b0 [t0 [t0' [S1 [S2 [S3 [S4 S5]]]]]]]; [lia|]. rewrite S1. cbn [bind fst snd].
  destruct (negif_ok b0 P A HP) as [R0 [R1 R2]]. rewrite R1. cbn [bind].
  destruct (shorter_ok u1 s1 G4 G5) as [b1 [t1 [t1' [T1 [T2 [T3 [T4 T5]]]]]]]; [lia|]. rewrite T1. cbn [bind fst snd].
  destruct (negif_ok b1 Q' _ Q4) as [R3 [R4 R5]]. rewrite R4. cbn [bind]. rewrite S2. cbn [bind]. rewrite T2. cbn [bind].
  destruct (mul2_ok r Hok _ _ _ _ _ WG _ _ WP R0 _ t0' R3 _ t1' R2 R5 S3 T3) as [R [M1 [M2 M3]]]. { destruct (sizes r bnx cru HI) as [_ Z]. lia. }
  exists R. split; [exact M1|]. cbv zeta. pose proof (phi_on p Hp ka kb kbt HkA K2 A OA) as OB.
  assert (EC : asum p ka (zt (V t0') (if b0 then aneg p A else A)) (zt (V t1') (if b1 then aneg p (ph A) else ph A)) = asum p ka (zt (sh q (V e mod g1_x2)) A) (zt (sh q (q - V e / g1_x2)) (ph A))).
  { rewrite <- G3, <- G6, <- S5, <- T5. destruct b0, b1; rewrite ?zt_gneg by assumption; reflexivity. }
  rewrite <- EC. split; assumption.
Qed.
(** the abstract facts about the endomorphism *)
Let A1 := phi_on p Hp ka kb kbt HkA K2.
Let A2 := phi_sum p Hp P3 ka kb kbt HkA KN K2.
Let A3 := phi_neg p kbt.
Let A4 := phi_three p Hp P3 ka kb kbt HkA KN K2.
Notation Gp := (Aff (gx r) (gy r)).
Lemma g_xy : gx r = g1_gx /\ gy r = g1_gy.
Proof. pose proof HR as H. clear - H. destruct H as [<-|[<-|[]]]; split; vm_compute; reflexivity. Qed.
Lemma g_on : on_w p (cA r) (cB r) Gp.
Proof. destruct g_xy as [-> ->]. rewrite (bls_p r HR), (proj1 (bls_AB r HR)), (proj2 (bls_AB r HR)). vm_compute. intuition discriminate. Qed.
Let Og : aon p ka kb (ak p Gp) := on_ak p Hp _ _ _ g_on.
Lemma g_eigen : ph (ak p Gp) = zt (- g1_x2) (ak p Gp).
Proof.
  assert (MD : forall v, g1_md v = v mod p) by (intros v; unfold g1_md; rewrite (bls_p r HR); reflexivity).
  assert (WR : weierstrass r) by (split; [exact Hw|split; [exact Hp|exact Hn]]).
  destruct g_xy as [Ex Ey].
  destruct (climb_ok r WR (gx r) (gy r) g1_md MD g_on slopes_x2 (gx r) (gy r) 1 (g1_md (g1_beta * g1_gx)) (g1_md (- g1_gy)) g1_x2 g_on eq_refl) as [_ [_ E]].
  - symmetry. apply (ztimes_1 _ _ _ _ _ WG). exact Og.
  - rewrite Ex, Ey, (proj1 (bls_AB r HR)). exact climb_x2.
  - rewrite (ztimes_opp _ _ _ _ _ WG) by exact Og. rewrite <- E. rewrite !MD, Ex, Ey. cbn [ak phi aneg]. f_equal.
    + rewrite <- mk_mul by exact Hp. apply mk_eq. symmetry. apply Zmod_mod.
    + assert (E0 : mk p ((- g1_gy) mod p) = mk p (- g1_gy)) by (apply mk_eq; apply Zmod_mod). rewrite E0, mk_opp by exact Hp. ring.
Qed.
Lemma q_eq : 1 - g1_x2 + g1_x2 * g1_x2 = q. Proof. reflexivity. Qed.
Lemma g_order : zt q (ak p Gp) = AInf p.
Proof. rewrite <- q_eq. exact (eigen_order _ _ _ _ _ WG ph eq_refl A2 A3 A4 _ _ Og g_eigen). Qed.
Lemma sh_q v : exists d, sh q v = v + d * q.
Proof. unfold sh. destruct (_ <? _); [|exists 0; ring]. exists (- (v / q) - 1). rewrite (Z.div_mod v q) at 2 by discriminate. ring. Qed.
(** on multiples of the generator the result is e A *)
Theorem g1mul_sub P A e n : A = zt n (ak p Gp) -> wden r P A -> big_wf c e -> V e < (q + 1) * g1_x2 ->
  exists R, g1mul r bnx cru P e = Some R /\ wden r R (zt (V e) A) /\ wnrm r R (zt (V e) A).
Proof.
  intros EA HP We Le. destruct (g1mul_den P A e HP We Le) as [R [R1 R2]]. cbv zeta in R2. exists R. split; [exact R1|].
  destruct (sh_q (V e mod g1_x2)) as [d0 E0]. destruct (sh_q (q - V e / g1_x2)) as [d1 E1]. rewrite E0, E1 in R2.
  rewrite (glv_sum _ _ _ _ _ WG ph eq_refl A2 A3 _ _ Og g_eigen n A q (V e) _ _ (d0 - (1 + d1) * g1_x2) g_order EA) in R2; [exact R2|].
  rewrite (Z.div_mod (V e) g1_x2) at 3 by discriminate. ring.
Qed.
(** the check computes A - (x^2 - 1) phi(A) *)
Theorem sub_check P A : wden r P A -> exists b, subgroup_check_g1 r bnx cru P = Some b /\ (b = true <-> asum p ka A (aneg p (zt (g1_x2 - 1) (ph A))) = AInf p).
Proof.
  intros HP. destruct qV as [QW QV]. pose proof (wden_on _ _ _ HP) as OA. destruct (g1mul_den P A (r_ORDER r) HP QW) as [R [R1 [R2 _]]]; [rewrite QV; reflexivity|].
  unfold subgroup_check_g1. rewrite R1. cbn [bind]. rewrite QV in R2.
  change (sh q (q mod g1_x2)) with 1 in R2. change (sh q (q - q / g1_x2)) with (- (g1_x2 - 1)) in R2. rewrite (ztimes_opp _ _ _ _ _ WG), (ztimes_1 _ _ _ _ _ WG) in R2 by (try apply A1; exact OA).
  exact (po_inf _ _ _ _ _ _ _ _ WP R _ R2).
Qed.
Theorem sub_sound P A : wden r P A -> subgroup_check_g1 r bnx cru P = Some true -> zt q A = AInf p.
Proof.
  intros HP H. destruct (sub_check P A HP) as [b [B1 B2]]. rewrite B1 in H. injection H as ->. pose proof (proj1 B2 eq_refl) as E.
  replace q with (1 + (g1_x2 - 1) + (g1_x2 - 1) * (g1_x2 - 1)) by reflexivity. exact (endo_sound _ _ _ _ _ WG ph A1 eq_refl A2 A3 A4 A _ (wden_on _ _ _ HP) E).
Qed.
Theorem sub_complete P A n : A = zt n (ak p Gp) -> wden r P A -> subgroup_check_g1 r bnx cru P = Some true.
Proof.
  intros EA HP. destruct qV as [QW QV]. destruct (g1mul_sub P A (r_ORDER r) n EA HP QW) as [R [R1 [R2 _]]]; [rewrite QV; reflexivity|].
  unfold subgroup_check_g1. rewrite R1. cbn [bind]. destruct (po_inf _ _ _ _ _ _ _ _ WP R _ R2) as [b [B1 B2]]. rewrite B1. f_equal. apply B2. rewrite QV.
  replace q with (1 * q) by reflexivity. exact (kill _ _ _ _ _ WG _ Og n A q 1 g_order EA).
Qed.
End S.
