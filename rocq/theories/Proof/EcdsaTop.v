(** ECDSA: the whole functions. *)
From Verif Require Import Base.Word Base.Arr Model.Big Model.Roms Model.Fp Model.Ecp Model.Sha2 Model.Rand Model.Ecdh Model.EccProto
  Spec.BigSpec Spec.RomSpec Spec.FpSpec Spec.CurveSpec Spec.EcpSpec Spec.Bytes Spec.Sha2Spec Spec.KdfSpec Spec.ProtoSpec
  Proof.BigVal Proof.BigBytes Proof.BigMod Proof.BigInv Proof.NumTheory Proof.RomCheck Proof.FpBase Proof.FpOps Proof.FpExp Proof.FpSqrt Proof.FpIv Proof.FieldP Proof.Weier
  Proof.EcpOps Proof.EcpW Proof.EcpBridge Proof.EcpMul Proof.EcpInst Proof.EcpCodec Proof.EcpCodec2 Proof.EcpCodec3 Proof.RandProof Proof.RandNum Proof.Sha2Stream Proof.EcdhSym Proof.EcpProto Proof.Ecdsa.
From Coq Require Import Znumtheory.

Section Top.
Variable r : rom.
Hypothesis HE : ec_group r.
Variable bd : build.
Notation c := (r_cfg r).
Notation p := (pmod r).
Notation a := (cA r).
Notation b := (cB r).
Notation n := (order r).
Notation B := (BASEBITS c).
Notation V := (val B).
Let Hw : w_ok r := proj1 (eg_w r HE).
Let Hp : prime p := proj1 (proj2 (eg_w r HE)).
Let Hn2 : no_order2 p a b := proj2 (proj2 (eg_w r HE)).
Let Hf : fp_ok r := proj1 Hw.
Let Hok : cfg_ok c := ff_ok r (fp_ok_facts r Hf).
Let Hc : codec r := eg_codec r HE.
Let Wn : big_wf c (r_ORDER r) := eg_nwf r HE.
Let Np : prime n := eg_n r HE.
Let N2 : 2 < n := eg_n2 r HE.
Let WG := w_group r Hw Hp Hn2.
Let WP := w_pops r Hw Hp Hn2.
Notation K := (apt p).
Notation O := (AInf p).
Notation kplus := (asum p (mk p a)).
Notation kneg := (aneg p).
Notation kon := (aon p (mk p a) (mk p b)).
Notation zt := (ztimes K O kplus kneg).
Notation AK := (ak p).
Notation SP := (sp p).
Notation MB := (mbytes r).
Notation g := (g r).
Let Hg : kon g := g_on r HE.

Let P3 : 3 < p := p_gt3 r Hf.
Lemma MBpos : (0 < MB)%nat. Proof. pose proof (cf_M c (cfg_ok_facts c Hok)). unfold mbytes. lia. Qed.
Lemma os2ip0 k : os2ip (repeat 0 k) = 0.
Proof. induction k as [|k IH]; [reflexivity|]. change (repeat 0 (S k)) with ([0] ++ repeat 0 k). rewrite os2ip_app, IH. change (os2ip [0]) with 0. lia. Qed.
Lemma digest sha Q f : In (sha, Q) sha_types -> bytes f -> room Q bd (length f + 4) ->
  exists h, hashit bd sha f 0 None MB (repeat 0 MB) = Some h /\ bytes h /\ length h = MB /\ os2ip h = os2ip (firstn MB (SHA2 Q f)).
Proof.
  intros VT Hf0 F. change 0 with (Z.of_nat 0) at 1. rewrite (hashit_ok sha Q VT bd f 0 None MB _ Hf0); [|constructor|cbn [opt_bytes length]; rewrite Nat.add_0_r; exact F].
  cbn [opt_bytes]. change (ctr_bytes 0) with (@nil Z). cbn [app]. rewrite app_nil_r. pose proof MBpos. pose proof (fit_length MB (SHA2 Q f)) as FL. destruct (Nat.eqb_spec MB 0); [lia|].
  rewrite put0 by (rewrite FL, repeat_length; lia). eexists. split; [reflexivity|]. rewrite FL, skipn_all2, app_nil_r by (rewrite repeat_length; lia).
  assert (BS : bytes (SHA2 Q f)) by (exact (SHA2_bytes Q f)). split; [|split; [exact FL|]].
  - unfold fit_to. destruct (Nat.eqb_spec MB 0); [lia|]. destruct (Nat.leb_spec MB (length (SHA2 Q f))); [apply bytes_firstn; exact BS|]. apply Forall_app. split; [|exact BS]. apply Forall_forall. intros x Hx. apply repeat_spec in Hx. subst x. unfold is_byte. lia.
  - unfold fit_to. destruct (Nat.eqb_spec MB 0); [lia|]. destruct (Nat.leb_spec MB (length (SHA2 Q f))); [reflexivity|]. rewrite os2ip_app, os2ip0, firstn_all2 by lia. lia.
Qed.
(** reading at most MB bytes *)
Lemma frb s : bytes s -> (MB <= length s)%nat -> exists x, frombytes c s = Some x /\ big_wf c x /\ V x = os2ip (firstn MB s) /\ V x < 256 ^ Z.of_nat MB.
Proof.
  intros Hs L. unfold frombytes. destruct (frombytearray_spec c Hok s 0 Hs) as [x [X1 [X2 X3]]]; [cbn [Nat.add]; lia|]. change (Z.to_nat (MODBYTES c)) with MB in X3. rewrite Nat.min_l in X3 by lia. cbn [skipn] in X3.
  exists x. split; [exact X1|]. split; [exact X2|]. split; [exact X3|]. rewrite X3. pose proof (os2ip_range (firstn MB s)) as R. rewrite firstn_length_le in R by lia. apply R. apply bytes_firstn. exact Hs.
Qed.
Lemma tob x w : big_wf c x -> (MB <= length w)%nat -> tobytes c x w = Some (i2osp (V x) MB ++ skipn MB w).
Proof. intros W L. unfold tobytes. rewrite (tobytearray_spec c Hok x w 0 W) by (cbn [Nat.add]; exact L). reflexivity. Qed.
Lemma tob0 x : big_wf c x -> tobytes c x (repeat 0 MB) = Some (i2osp (V x) MB).
Proof. intros W. rewrite tob by (try rewrite repeat_length; auto). rewrite skipn_all2, app_nil_r by (rewrite repeat_length; lia). reflexivity. Qed.

(** what the digest stands for *)
Definition dig (Q : sha_par) (f : list Z) : Z := os2ip (firstn MB (SHA2 Q f)).
Theorem sign_ok fuel sha Q rng s f co dO res : In (sha, Q) sha_types -> bytes f -> room Q bd (length f + 4) -> sane rng -> bytes s -> (MB <= length s)%nat -> (MB <= length co)%nat -> (MB <= length dO)%nat ->
  ecpsp_dsa r bd fuel sha rng s f co dO = Some res ->
  exists cv dv rng', res = (0, i2osp cv MB ++ skipn MB co, i2osp dv MB ++ skipn MB dO, rng') /\ sane rng' /\ ecdsa_signature p a n (gpoint r) (dig Q f) (os2ip (firstn MB s)) cv dv.
Proof.
  intros VT Bf F Sr Bs Ls Lc Ld. unfold ecpsp_dsa. destruct (digest sha Q f VT Bf F) as [h [H1 [H2 [H3 H4]]]]. change (Z.to_nat (MODBYTES c)) with MB. rewrite H1. cbn [bind].
  destruct (gen_ok r HE) as [G [G1 G2]]. rewrite G1. cbn [bind]. destruct (frb s Bs Ls) as [sc [S1 [S2 [S3 S4]]]]. rewrite S1. cbn [bind].
  destruct (frb h H2 ltac:(lia)) as [fb [F1 [F2 [F3 F4]]]]. rewrite F1. cbn [bind]. rewrite (firstn_all2 h) in F3 by lia. rewrite H4 in F3.
  destruct (dsa_loop r bd fuel G sc fb (big_new c) (big_new c) rng) as [[[cb db] rng']|] eqn:EL; [|discriminate]. cbn [bind].
  destruct (BigMod.zero_wf c Hok) as [Z1 Z2].
  destruct (dsa_loop_ok r HE bd fuel G sc fb (big_new c) (big_new c) rng cb db rng' G2 S2 F2 F4 Sr Z1 Z1 ltac:(intros X; rewrite Z2 in X; congruence) EL) as [W1 [W2 [SG S']]].
  rewrite (tob0 cb W1). cbn [bind]. pose proof (i2osp_length (V cb) MB) as L1. rewrite put0 by lia. cbn [bind]. rewrite (tob db _ W2) by lia. cbn [bind].
  rewrite skipn_all2 by lia. rewrite app_nil_r. rewrite put0 by (rewrite i2osp_length; lia). cbn [bind]. rewrite !i2osp_length. intros E. injection E as <-.
  exists (V cb), (V db), rng'. split; [reflexivity|]. split; [exact S'|]. unfold SIG in SG. rewrite F3, S3 in SG. exact SG.
Qed.

Lemma comp_wf x y : big_wf c x -> big_wf c y -> comp x y = match V x ?= V y with Lt => -1 | Eq => 0 | Gt => 1 end.
Proof. intros [L1 W1] [L2 W2]. apply (comp_spec c (HBB r HE)); [apply canon_nrm; exact W1|apply canon_nrm; exact W2|congruence]. Qed.
Lemma in_range x : big_wf c x -> (iszilch x || (0 <=? comp x (r_ORDER r)) = false <-> 0 < V x < n).
Proof.
  intros W. rewrite (zilch r HE x W), (comp_wf x _ W Wn), Vn. pose proof (brange c Hok x W). destruct (Z.eqb_spec (V x) 0) as [E|E]; cbn [orb]; [split; [discriminate|lia]|].
  destruct (Z.compare_spec (V x) n) as [X|X|X]; change (0 <=? 0) with true; change (0 <=? 1) with true; change (0 <=? -1) with false; split; try discriminate; try lia; reflexivity.
Qed.

(** verification *)
Theorem verify_ok sha Q w f ci di P W : In (sha, Q) sha_types -> bytes f -> room Q bd (length f + 4) -> bytes ci -> bytes di -> (MB <= length ci)%nat -> (MB <= length di)%nat ->
  ecp_frombytes r w = Some P -> w_point r P W ->
  let cv := os2ip (firstn MB ci) in let dv := os2ip (firstn MB di) in
  exists res, ecpvp_dsa r bd sha w f ci di = Some res /\
    (~ (0 < cv < n /\ 0 < dv < n) -> res = INVALID) /\
    (0 < cv < n /\ 0 < dv < n -> W = Inf -> res = DH_ERROR) /\
    (0 < cv < n /\ 0 < dv < n -> W <> Inf -> res = 0 \/ res = INVALID) /\
    (res = 0 <-> W <> Inf /\ ecdsa_valid p a n (gpoint r) W (dig Q f) cv dv).
Proof.
  intros VT Bf F Bc Bd Lc Ld EP HW cv dv. unfold ecpvp_dsa. destruct (digest sha Q f VT Bf F) as [h [H1 [H2 [H3 H4]]]]. change (Z.to_nat (MODBYTES c)) with MB. rewrite H1. cbn [bind].
  destruct (gen_ok r HE) as [G [G1 G2]]. rewrite G1. cbn [bind]. destruct (frb ci Bc Lc) as [cb [C1 [C2 [C3 C4]]]]. rewrite C1. cbn [bind]. destruct (frb di Bd Ld) as [db [D1 [D2 [D3 D4]]]]. rewrite D1. cbn [bind].
  fold cv in C3. fold dv in D3. rewrite <- orb_assoc. pose proof (in_range cb C2) as IC. pose proof (in_range db D2) as ID. rewrite C3 in IC. rewrite D3 in ID.
  destruct (iszilch cb || (0 <=? comp cb (r_ORDER r))) eqn:E1; cbn [orb].
  { exists INVALID. split; [reflexivity|]. assert (NR : ~ 0 < cv < n) by (intros X; apply IC in X; discriminate X). split; [reflexivity|]. split; [tauto|]. split; [tauto|]. split; [discriminate|]. intros [_ [X _]]. tauto. }
  destruct (iszilch db || (0 <=? comp db (r_ORDER r))) eqn:E2.
  { exists INVALID. split; [reflexivity|]. assert (NR : ~ 0 < dv < n) by (intros X; apply ID in X; discriminate X). split; [reflexivity|]. split; [tauto|]. split; [tauto|]. split; [discriminate|]. intros [_ [_ [X _]]]. tauto. }
  assert (RC : 0 < cv < n) by (apply IC; reflexivity). assert (RD : 0 < dv < n) by (apply ID; reflexivity). clear IC ID E1 E2.
  destruct (frb h H2 ltac:(lia)) as [fb [F1 [F2 [F3 F4]]]]. rewrite F1. cbn [bind]. rewrite (firstn_all2 h) in F3 by lia. rewrite H4 in F3. fold (dig Q f) in F3.
  destruct (inv_n r HE db D2) as [iv [I1 [I2 [I3 I4]]]]; [rewrite Z.mod_small by lia; lia|]. rewrite I1. cbn [bind]. pose proof (brange c Hok iv I2) as RI.
  destruct (modmul_n r HE fb iv F2 I2) as [h1 [M1 [M2 M3]]]. rewrite M1. cbn [bind]. destruct (modmul_n r HE cb iv C2 I2) as [h2 [U1 [U2 U3]]]. rewrite U1. cbn [bind]. rewrite EP. cbn [bind].
  pose proof (proj1 (w_point_den r Hw Hp P W) HW) as [OW HD]. pose proof (sp_ak p a b W OW) as SA. rewrite (is_inf_ok r HE P _ HD). cbn [bind].
  assert (WI : W = Inf <-> AK W = O) by (rewrite <- (sp_inf r (AK W)), SA; reflexivity).
  destruct (ak p W) as [|wx wy] eqn:EW.
  { exists DH_ERROR. split; [reflexivity|]. split; [tauto|]. split; [reflexivity|]. split; [intros _ X; exfalso; apply X, WI; reflexivity|]. split; [discriminate|]. intros [X _]. exfalso. apply X, WI. reflexivity. }
  assert (WN : W <> Inf) by (intros X; apply WI in X; discriminate X). rewrite <- EW in *. clear EW wx wy.
  pose proof (Z.mod_pos_bound (V fb * V iv) n ltac:(lia)) as R1. pose proof (Z.mod_pos_bound (V cb * V iv) n ltac:(lia)) as R2.
  destruct (mul2_ok r Hok _ _ _ _ _ WG _ _ WP P (AK W) h2 G g h1 HD G2 U2 M2) as [R [RR1 [RR2 _]]]; [pose proof (eg_cap r HE); unfold NBITS; rewrite U3, M3; lia|].
  rewrite RR1. cbn [bind]. rewrite (is_inf_ok r HE R _ RR2). cbn [bind]. set (T := kplus (zt (V h2) (AK W)) (zt (V h1) g)) in *.
  assert (OK : ecdsa_valid p a n (gpoint r) W (dig Q f) cv dv <-> exists x y, SP T = Aff x y /\ x mod n = cv).
  { assert (OnT1 : kon (zt (V h2) (AK W))) by (apply (ztimes_on _ _ _ _ _ WG); apply on_ak; assumption). assert (OnT2 : kon (zt (V h1) g)) by (apply (ztimes_on _ _ _ _ _ WG); exact Hg).
    assert (IU : forall i, 0 <= i < n -> (dv * i) mod n = 1 -> i = V iv).
    { intros i Hi Ei. rewrite D3 in I4. rewrite <- (Z.mod_small i n) by lia. rewrite <- (Z.mod_small (V iv) n) by lia. rewrite <- (Z.mul_1_l i), <- (Z.mul_1_r (V iv)). rewrite <- Ei at 2. rewrite <- I4.
      rewrite Z.mul_mod_idemp_l, Z.mul_mod_idemp_r by lia. f_equal. ring. }
    split.
    - intros [_ [_ [i [A [Bp [x [y [Hi [Ei [TA [TB [TS EX]]]]]]]]]]]]. rewrite (IU i Hi Ei) in *. rewrite <- C3, <- U3 in TA. rewrite <- F3, <- M3 in TB. exists x, y. split; [|exact EX].
      apply (times_iff r HE) in TA; [|exact OW|rewrite U3; lia]. apply (times_iff r HE) in TB; [|exact (eg_g r HE)|rewrite M3; lia]. fold g in TB. rewrite TA, TB in TS.
      apply (spec_sum_iff p Hp P3 a b) in TS; [|apply on_sp; assumption|apply on_sp; assumption]. rewrite !ak_sp in TS by exact Hp. symmetry. exact TS.
    - intros [x [y [ET EX]]]. split; [exact RC|]. split; [exact RD|]. exists (V iv), (SP (zt (V h2) (AK W))), (SP (zt (V h1) g)), x, y. split; [lia|]. split; [rewrite Z.mul_comm, <- D3; exact I4|].
      split; [rewrite <- C3, <- U3; apply (times_iff r HE); [exact OW|rewrite U3; lia|reflexivity]|]. split; [rewrite <- F3, <- M3; apply (times_iff r HE); [exact (eg_g r HE)|rewrite M3; lia|reflexivity]|].
      split; [|exact EX]. rewrite <- ET. unfold T. apply (sum_ex p Hp P3 a b); assumption. }
  destruct T as [|tx ty] eqn:ET.
  { exists INVALID. split; [reflexivity|]. split; [tauto|]. split; [tauto|]. split; [auto|]. split; [discriminate|]. intros [_ X]. apply OK in X. destruct X as [x [y [X _]]]. cbn [sp] in X. discriminate X. }
  rewrite <- ET in *. destruct (sp_aff r T) as [x [y EX]]; [rewrite ET; discriminate|]. destruct (getx_ok r HE R T x y RR2 EX) as [xr [X1 [X2 X3]]]. rewrite X1. cbn [bind].
  destruct (rmod_n r HE xr X2) as [xm [Y1 [Y2 Y3]]]. rewrite Y1. cbn [bind].
  assert (CE : (comp xm cb =? 0) = (x mod n =? cv)). { rewrite (comp_eq c (HBB r HE)); [rewrite Y3, X3, C3; reflexivity|apply canon_nrm, Y2|apply canon_nrm, C2|rewrite (proj1 Y2), (proj1 C2); reflexivity]. }
  rewrite CE. eexists. split; [reflexivity|]. split; [tauto|]. split; [tauto|]. split; [intros _ _; destruct (x mod n =? cv); cbn [negb]; auto|]. rewrite OK. split.
  - destruct (Z.eqb_spec (x mod n) cv) as [EQ|NE]; cbn [negb]; [|discriminate]. intros _. split; [exact WN|]. exists x, y. auto.
  - intros [_ [x' [y' [EX' Em]]]]. rewrite EX in EX'. injection EX' as <- <-. rewrite Em, Z.eqb_refl. reflexivity.
Qed.

(** every signature verifies under the matching public key *)
Theorem sig_valid s e cv dv : ecdsa_signature p a n (gpoint r) e s cv dv -> ecdsa_valid p a n (gpoint r) (SP (zt s g)) e cv dv.
Proof.
  intros [RC [RD [k [x [y [Hk [TK [EC ES]]]]]]]]. split; [exact RC|]. split; [exact RD|].
  apply (times_iff r HE) in TK; [|exact (eg_g r HE)|lia]. fold g in TK.
  assert (GCD : exists i, 0 <= i < n /\ (dv * i) mod n = 1). { 
    assert (RP : rel_prime dv n) by (apply rel_prime_le_prime; [exact Np|lia]). destruct (rel_prime_bezout _ _ RP) as [u v Huv]. exists (u mod n). split; [apply Z.mod_pos_bound; lia|].
    rewrite Z.mul_mod_idemp_r by lia. replace (dv * u) with (1 + (- v) * n) by lia. rewrite Z.mod_add by lia. apply Z.mod_1_l. lia. }
  destruct GCD as [i [Hi Ei]]. set (A := zt s g).
  assert (OA : kon A) by (apply (ztimes_on _ _ _ _ _ WG); exact Hg). assert (OSA : on_w p a b (SP A)) by (apply on_sp; assumption).
  pose proof (Z.mod_pos_bound (cv * i) n ltac:(lia)) as R1. pose proof (Z.mod_pos_bound (e * i) n ltac:(lia)) as R2.
  exists i, (SP (zt ((cv * i) mod n) A)), (SP (zt ((e * i) mod n) g)), x, y. split; [exact Hi|]. split; [exact Ei|].
  split; [apply (times_iff r HE); [exact OSA|lia|rewrite ak_sp by exact Hp; reflexivity]|]. split; [apply (times_iff r HE); [exact (eg_g r HE)|lia|reflexivity]|]. split; [|symmetry; exact EC].
  assert (E : zt k g = kplus (zt ((cv * i) mod n) A) (zt ((e * i) mod n) g)).
  { unfold A. rewrite (ztimes_mul _ _ _ _ _ WG) by exact Hg. rewrite <- (ztimes_add _ _ _ _ _ WG) by exact Hg. apply (zt_cong r HE).
    rewrite Z.add_mod_idemp_r by lia. rewrite <- Z.add_mod_idemp_l by lia. rewrite Z.mul_mod_idemp_l by lia. rewrite Z.add_mod_idemp_l by lia.
    replace (cv * i * s + e * i) with ((e + s * cv) * i) by ring. rewrite <- Z.mul_mod_idemp_l, <- ES, Z.mul_mod_idemp_l by lia. replace (dv * k * i) with (k * (dv * i)) by ring.
    rewrite <- Z.mul_mod_idemp_r, Ei, Z.mul_1_r by lia. reflexivity. }
  rewrite TK, E. apply (sum_ex p Hp P3 a b); try assumption; apply (ztimes_on _ _ _ _ _ WG); assumption.
Qed.

(** one successful turn of signing, and the endless one *)
Theorem sign_first fuel sha Q rng s f co dO k m g1 g2 x y : In (sha, Q) sha_types -> bytes f -> room Q bd (length f + 4) -> sane rng -> bytes s -> (MB <= length s)%nat -> (MB <= length co)%nat -> (MB <= length dO)%nat ->
  randomnum r bd (r_ORDER r) rng = Some (k, g1) -> randomnum r bd (r_ORDER r) g1 = Some (m, g2) -> V k <> 0 -> V m <> 0 -> w_times p a (gpoint r) (Z.to_nat (V k)) (Aff x y) -> x mod n <> 0 ->
  (dig Q f + os2ip (firstn MB s) * (x mod n)) mod n <> 0 ->
  exists dv, 0 < dv < n /\ (dv * V k) mod n = (dig Q f + os2ip (firstn MB s) * (x mod n)) mod n /\
    ecpsp_dsa r bd (S fuel) sha rng s f co dO = Some (0, i2osp (x mod n) MB ++ skipn MB co, i2osp dv MB ++ skipn MB dO, g2).
Proof.
  intros VT Bf F Sr Bs Ls Lc Ld K1 K2 NK NM TX NX ND. unfold ecpsp_dsa. destruct (digest sha Q f VT Bf F) as [h [H1 [H2 [H3 H4]]]]. change (Z.to_nat (MODBYTES c)) with MB. rewrite H1. cbn [bind].
  destruct (gen_ok r HE) as [G [G1 G2]]. rewrite G1. cbn [bind]. destruct (frb s Bs Ls) as [sc [S1 [S2 [S3 S4]]]]. rewrite S1. cbn [bind].
  destruct (frb h H2 ltac:(lia)) as [fb [F1 [F2 [F3 F4]]]]. rewrite F1. cbn [bind]. rewrite (firstn_all2 h) in F3 by lia. rewrite H4 in F3. fold (dig Q f) in F3.
  destruct (BigMod.zero_wf c Hok) as [Z1 Z2].
  destruct (rnum r HE bd rng Sr) as [k' [g1' [R1 [Wk [Rk Sg1]]]]]. rewrite K1 in R1. injection R1 as <- <-. destruct (rnum r HE bd g1 Sg1) as [m' [g2' [R2 [Wm [Rm Sg2]]]]]. rewrite K2 in R2. injection R2 as <- <-.
  apply (times_iff r HE) in TX; [|exact (eg_g r HE)|lia]. fold g in TX.
  destruct (dsa_turn r HE bd fuel G sc fb (big_new c) (big_new c) rng k m g1 g2 G2 S2 F2 F4 Z1 Z2 K1 K2 Wk Wm Rk Rm) as [[X _]|[[X _]|[_ [_ [cb' [db' [x' [y' [W1 [W2 [EX [C1 [C0 [D1 [D2 E]]]]]]]]]]]]]]].
  - exfalso. destruct X as [X|[x1 [y1 [X1 X2]]]]; [contradiction|]. rewrite <- TX in X1. injection X1 as <- <-. contradiction.
  - contradiction.
  - rewrite <- TX in EX. injection EX as <- <-. rewrite E. rewrite C1, F3, S3 in D2. assert (DN : V db' <> 0). { intros X. apply ND. rewrite <- D2, X, Z.mul_0_l. apply Z.mod_0_l. lia. }
    assert (EL : dsa_loop r bd fuel G sc fb cb' db' g2 = Some (cb', db', g2)) by (destruct fuel; cbn [dsa_loop]; rewrite (zilch r HE db' W2); destruct (Z.eqb_spec (V db') 0); [contradiction|reflexivity|contradiction|reflexivity]).
    rewrite EL. cbn [bind]. rewrite (tob0 cb' W1). cbn [bind]. pose proof (i2osp_length (V cb') MB) as L1. rewrite put0 by lia. cbn [bind]. rewrite (tob db' _ W2) by lia. cbn [bind].
    rewrite skipn_all2 by lia. rewrite app_nil_r. rewrite put0 by (rewrite i2osp_length; lia). cbn [bind]. rewrite !i2osp_length, C1. exists (V db'). split; [lia|]. split; [exact D2|]. reflexivity.
Qed.
Theorem sign_stuck fuel sha Q rng s f co dO k m g1 g2 x y : In (sha, Q) sha_types -> bytes f -> room Q bd (length f + 4) -> sane rng -> bytes s -> (MB <= length s)%nat ->
  randomnum r bd (r_ORDER r) rng = Some (k, g1) -> randomnum r bd (r_ORDER r) g1 = Some (m, g2) -> V k <> 0 -> V m = 0 -> w_times p a (gpoint r) (Z.to_nat (V k)) (Aff x y) -> x mod n <> 0 ->
  ecpsp_dsa r bd fuel sha rng s f co dO = None.
Proof.
  intros VT Bf F Sr Bs Ls K1 K2 NK NM TX NX. unfold ecpsp_dsa. destruct (digest sha Q f VT Bf F) as [h [H1 [H2 [H3 H4]]]]. change (Z.to_nat (MODBYTES c)) with MB. rewrite H1. cbn [bind].
  destruct (gen_ok r HE) as [G [G1 G2]]. rewrite G1. cbn [bind]. destruct (frb s Bs Ls) as [sc [S1 [S2 [S3 S4]]]]. rewrite S1. cbn [bind].
  destruct (frb h H2 ltac:(lia)) as [fb [F1 [F2 [F3 F4]]]]. rewrite F1. cbn [bind].
  destruct (BigMod.zero_wf c Hok) as [Z1 Z2].
  destruct (rnum r HE bd rng Sr) as [k' [g1' [R1 [Wk [Rk Sg1]]]]]. rewrite K1 in R1. injection R1 as <- <-. destruct (rnum r HE bd g1 Sg1) as [m' [g2' [R2 [Wm [Rm Sg2]]]]]. rewrite K2 in R2. injection R2 as <- <-.
  apply (times_iff r HE) in TX; [|exact (eg_g r HE)|lia]. fold g in TX.
  destruct fuel as [|fuel]; [cbn [dsa_loop]; rewrite (zilch r HE _ Z1), Z2; reflexivity|].
  destruct (dsa_turn r HE bd fuel G sc fb (big_new c) (big_new c) rng k m g1 g2 G2 S2 F2 F4 Z1 Z2 K1 K2 Wk Wm Rk Rm) as [[X _]|[[_ E]|[_ [X _]]]].
  - exfalso. destruct X as [X|[x1 [y1 [X1 X2]]]]; [contradiction|]. rewrite <- TX in X1. injection X1 as <- <-. contradiction.
  - rewrite E. reflexivity.
  - contradiction.
Qed.
End Top.
