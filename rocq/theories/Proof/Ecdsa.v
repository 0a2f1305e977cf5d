(** ECDSA signing and verification, Diffie-Hellman and key pairs. *)
From Verif Require Import Base.Word Base.Arr Model.Big Model.Roms Model.Fp Model.Ecp Model.Sha2 Model.Rand Model.Ecdh Model.EccProto
  Spec.BigSpec Spec.RomSpec Spec.FpSpec Spec.CurveSpec Spec.EcpSpec Spec.Bytes Spec.Sha2Spec Spec.ProtoSpec
  Proof.BigVal Proof.BigBytes Proof.BigMod Proof.BigInv Proof.NumTheory Proof.RomCheck Proof.FpBase Proof.FpOps Proof.FpExp Proof.FpSqrt Proof.FpIv Proof.FieldP Proof.Weier
  Proof.EcpOps Proof.EcpW Proof.EcpBridge Proof.EcpMul Proof.EcpInst Proof.EcpCodec Proof.EcpCodec2 Proof.EcpCodec3 Proof.RandProof Proof.RandNum Proof.EcdhSym Proof.EcpProto.
From Coq Require Import Znumtheory.

Section Dsa.
Variable r : rom.
Hypothesis HE : ec_group r.
Variable bd : build.
Notation c := (r_cfg r).
Notation p := (pmod r).
Notation a := (cA r).
Notation b := (cB r).
Notation n := (order r).
Notation B := (BASEBITS c).
Notation V := (val B).
Let Hw : w_ok r := proj1 (eg_w r HE).
Let Hp : prime p := proj1 (proj2 (eg_w r HE)).
Let Hn2 : no_order2 p a b := proj2 (proj2 (eg_w r HE)).
Let Hf : fp_ok r := proj1 Hw.
Let Hok : cfg_ok c := ff_ok r (fp_ok_facts r Hf).
Let Hc : codec r := eg_codec r HE.
Let Wn : big_wf c (r_ORDER r) := eg_nwf r HE.
Let Np : prime n := eg_n r HE.
Let N2 : 2 < n := eg_n2 r HE.
Let WG := w_group r Hw Hp Hn2.
Let WP := w_pops r Hw Hp Hn2.
Notation K := (apt p).
Notation O := (AInf p).
Notation kplus := (asum p (mk p a)).
Notation kneg := (aneg p).
Notation kon := (aon p (mk p a) (mk p b)).
Notation zt := (ztimes K O kplus kneg).
Notation AK := (ak p).
Notation SP := (sp p).
Notation MB := (mbytes r).
Notation g := (g r).
Let Hg : kon g := g_on r HE.

Lemma zilch w : big_wf c w -> iszilch w = (V w =? 0).
Proof. intros W. apply (iszilch_spec c (HBB r HE)). apply canon_nrm. exact (proj2 W). Qed.
Lemma sp_inf A : SP A = Inf <-> A = O.
Proof. destruct A as [|x y]; cbn [sp]; split; congruence. Qed.
Lemma sp_aff A : A <> O -> exists x y, SP A = Aff x y.
Proof. destruct A as [|x y]; [congruence|]. intros _. cbn [sp]. eauto. Qed.

Definition SIG (fb sc cb db : list Z) : Prop := ecdsa_signature p a n (gpoint r) (V fb) (V sc) (V cb) (V db).
Lemma rnum rng : sane rng -> exists m rng', randomnum r bd (r_ORDER r) rng = Some (m, rng') /\ big_wf c m /\ 0 <= V m < n /\ sane rng'.
Proof.
  intros S. destruct (randomnum_ok r bd Hok (r_ORDER r) rng Wn ltac:(rewrite Vn; lia) S) as [m [bs [rng' [E [_ [S' [_ [W E2]]]]]]]]. exists m, rng'. split; [exact E|]. split; [exact W|]. split; [|exact S'].
  rewrite E2, Vn. apply Z.mod_pos_bound. lia.
Qed.
(** one turn of the signing loop *)
Lemma dsa_turn f G sc fb cb db rng u w rng1 rng2 : wden r G g -> big_wf c sc -> big_wf c fb -> V fb < 256 ^ Z.of_nat MB -> big_wf c db -> V db = 0 ->
  randomnum r bd (r_ORDER r) rng = Some (u, rng1) -> randomnum r bd (r_ORDER r) rng1 = Some (w, rng2) -> big_wf c u -> big_wf c w -> 0 <= V u < n -> 0 <= V w < n ->
  ((V u = 0 \/ exists x y, SP (zt (V u) g) = Aff x y /\ x mod n = 0) /\ exists cb', big_wf c cb' /\ dsa_loop r bd (S f) G sc fb cb db rng = dsa_loop r bd f G sc fb cb' db rng2) \/
  (V w = 0 /\ dsa_loop r bd (S f) G sc fb cb db rng = None) \/
  (V u <> 0 /\ V w <> 0 /\ exists cb' db' x y, big_wf c cb' /\ big_wf c db' /\ SP (zt (V u) g) = Aff x y /\ V cb' = x mod n /\ V cb' <> 0 /\ 0 <= V db' < n /\
     (V db' * V u) mod n = (V fb + V sc * V cb') mod n /\ dsa_loop r bd (S f) G sc fb cb db rng = dsa_loop r bd f G sc fb cb' db' rng2).
Proof.
  intros HG Wsc Wfb Lfb Wdb D0 R1 R2 Wu Ww Hu Hw'. cbn [dsa_loop]. rewrite (zilch db Wdb), D0. change (0 =? 0) with true. cbn [negb]. cbv iota. rewrite R1. cbn [bind fst snd]. rewrite R2. cbn [bind fst snd].
  destruct (mulP r HE G g u HG Wu ltac:(lia)) as [Q [Q1 Q2]]. rewrite Q1. cbn [bind].
  destruct (Z.eq_dec (V u) 0) as [U0|U0].
  { left. split; [left; exact U0|]. destruct (getx_new r HE G u Q HG Wu U0 Q1) as [xr [X1 [X2 X3]]]. rewrite X1. cbn [bind]. destruct (rmod_n r HE xr X2) as [cb' [C1 [C2 C3]]]. rewrite C1. cbn [bind].
    rewrite (zilch cb' C2), C3, X3, Z.mod_0_l by lia. change (0 =? 0) with true. cbv iota. exists cb'. auto. }
  destruct (sp_aff (zt (V u) g)) as [x [y EX]]; [apply (zt_nz r HE); rewrite Z.mod_small by lia; exact U0|].
  destruct (getx_ok r HE Q _ x y Q2 EX) as [xr [X1 [X2 X3]]]. rewrite X1. cbn [bind]. destruct (rmod_n r HE xr X2) as [cb' [C1 [C2 C3]]]. rewrite C1. cbn [bind]. rewrite (zilch cb' C2).
  destruct (Z.eqb_spec (V cb') 0) as [C0|C0]; [left; split; [right; exists x, y; split; [exact EX|]; rewrite <- X3, <- C3; exact C0|exists cb'; auto]|].
  destruct (modmul_n r HE u w Wu Ww) as [uw [M1 [M2 M3]]]. rewrite M1. cbn [bind].
  destruct (Z.eq_dec (V w) 0) as [W0|W0].
  { right. left. split; [exact W0|]. rewrite (inv_0 r HE uw M2); [reflexivity|]. rewrite M3, W0, Z.mul_0_r, Z.mod_mod by lia. apply Z.mod_0_l. lia. }
  right. right. split; [exact U0|]. split; [exact W0|].
  assert (UW : (V u * V w) mod n <> 0). { intros E. apply (prime_mul_zero n _ _ Np) in E. destruct E as [E|E]; rewrite Z.mod_small in E by lia; contradiction. }
  destruct (inv_n r HE uw M2) as [iv [I1 [I2 [I3 I4]]]]; [rewrite M3, Z.mod_mod by lia; exact UW|]. rewrite I1. cbn [bind].
  destruct (modmul_n r HE sc cb' Wsc C2) as [sc1 [S1 [S2 S3]]]. rewrite S1. cbn [bind].
  assert (BM : V sc1 + V fb < bmax c). { rewrite S3. pose proof (Z.mod_pos_bound (V sc * V cb') n ltac:(lia)). pose proof (proj2 (eg_enc r HE)). lia. }
  destruct (modmul_sum r HE sc1 fb w S2 Wfb Ww BM) as [s [t [T1 [T2 [T3 T4]]]]]. rewrite T1. cbn [bind]. rewrite T2. cbn [bind].
  destruct (modmul_n r HE iv t I2 T3) as [db' [D1 [D2 D3]]]. rewrite D1. cbn [bind].
  exists cb', db', x, y. split; [exact C2|]. split; [exact D2|]. split; [exact EX|]. split; [rewrite C3, X3; reflexivity|]. split; [exact C0|]. split; [rewrite D3; apply Z.mod_pos_bound; lia|]. split; [|reflexivity].
  rewrite D3, T4, S3. rewrite M3 in I4. rewrite Z.mul_mod_idemp_r in I4 by lia.
  rewrite Z.mul_mod_idemp_r by lia. rewrite Z.mul_mod_idemp_l by lia.
  replace (V iv * (((V sc * V cb') mod n + V fb) * V w) * V u) with (((V sc * V cb') mod n + V fb) * (V iv * (V u * V w))) by ring.
  rewrite <- Z.mul_mod_idemp_r by lia. rewrite I4, Z.mul_1_r. rewrite Z.add_mod_idemp_l by lia. f_equal. ring.
Qed.
Lemma dsa_loop_ok f : forall G sc fb cb db rng cb' db' rng', wden r G g -> big_wf c sc -> big_wf c fb -> V fb < 256 ^ Z.of_nat MB -> sane rng -> big_wf c cb -> big_wf c db ->
  (V db <> 0 -> SIG fb sc cb db) -> dsa_loop r bd f G sc fb cb db rng = Some (cb', db', rng') -> big_wf c cb' /\ big_wf c db' /\ SIG fb sc cb' db' /\ sane rng'.
Proof.
  induction f as [|f IH]; intros G sc fb cb db rng cb' db' rng' HG Wsc Wfb Lfb Sr Wcb Wdb Inv.
  - cbn [dsa_loop]. rewrite (zilch db Wdb). destruct (Z.eqb_spec (V db) 0) as [D0|D0]; cbn [negb]; [discriminate|]. intros E. injection E as <- <- <-. auto.
  - destruct (Z.eq_dec (V db) 0) as [D0|D0].
    + destruct (rnum rng Sr) as [u [rng1 [R1 [Wu [Hu S1]]]]]. destruct (rnum rng1 S1) as [w [rng2 [R2 [Ww [Hw' S2]]]]].
      destruct (dsa_turn f G sc fb cb db rng u w rng1 rng2 HG Wsc Wfb Lfb Wdb D0 R1 R2 Wu Ww Hu Hw') as [[_ [cb1 [W1 E]]]|[[_ E]|[U0 [W0 [cb1 [db1 [x [y [W1 [W2 [EX [C1 [C0 [D1 [D2 E]]]]]]]]]]]]]]].
      * rewrite E. apply IH; try assumption. intros X. contradiction.
      * rewrite E. discriminate.
      * rewrite E. apply IH; try assumption. intros X. split; [pose proof (brange c Hok cb1 W1); rewrite C1 in *; pose proof (Z.mod_pos_bound x n ltac:(lia)); lia|]. split; [lia|].
        exists (V u), x, y. split; [lia|]. split; [apply (times_iff r HE); [exact (eg_g r HE)|lia|symmetry; exact EX]|]. split; [exact C1|exact D2].
    + cbn [dsa_loop]. rewrite (zilch db Wdb). destruct (Z.eqb_spec (V db) 0) as [D1|D1]; cbn [negb]; [contradiction|]. intros E. injection E as <- <- <-. auto.
Qed.
End Dsa.
