(** The M-Pin conditions for bls381 and bn254, and a concrete identity on bn254. *)
From Verif Require Import Base.Word Base.Arr Model.Big Model.Roms Model.Fp Model.Ecp Model.Sha2 Model.Mpin Spec.Bytes Spec.BigSpec Spec.RomSpec Spec.FpSpec Spec.CurveSpec Spec.EcpSpec Spec.Sha2Spec Spec.MpinSpec Spec.KdfSpec
  Proof.FpWide Proof.FpBase Proof.FieldP Proof.Weier Proof.EcpBridge Proof.EcpMul Proof.EcpInst Proof.EcpCodec3 Proof.MpinProof Proof.EcdhSym Proof.BlsRoms Proof.BlsInst Proof.OrderCert Proof.EcGroupInst Proof.SlopesMpin Proof.Primes Proof.Pocklington Proof.CurveFacts Proof.FpCheck Proof.EcpCheck.
From Coq Require Import Lia Znumtheory.
Lemma bls_mpin r : In r bls_roms -> mpin_rom r.
Proof.
  intros H. split; [split; [exact (bls_w r H)|split; [exact (bls_prime r H)|exact (bls_no2 r H)]]|]. split; [exact (bls_codec r H)|]. split; [exact (bls_ns r H)|].
  destruct H as [<-|[<-|[]]]; (split; [apply wide_okb_ok; vm_compute; reflexivity|]); (split; [apply wfb_ok; vm_compute; reflexivity|vm_compute; reflexivity]).
Qed.
Section Climb.
Variable r : rom.
Hypothesis HW : weierstrass r.
Notation p := (pmod r).
(** a checked chain is a scalar multiple *)
Lemma climb_times md a gx gy l k x y : (forall v, md v = v mod p) -> cA r = a -> on_w p (cA r) (cB r) (Aff gx gy) -> climb md a gx gy l gx gy 1 = Some (x, y, k) -> 0 < k /\ w_times p (cA r) (Aff gx gy) (Z.to_nat k) (Aff x y).
Proof.
  intros HM <- O E. pose proof HW as [Hw [Hp Hn]]. assert (WG := w_group r Hw Hp Hn).
  destruct (climb_ok r HW gx gy md HM O l gx gy 1 x y k O ltac:(lia)) as [O1 [K1 K2]]; [symmetry; apply (ztimes_1 _ _ _ _ _ WG); apply on_ak; assumption|exact E|].
  split; [exact K1|]. apply (w_times_iff r Hw Hp Hn); [exact O|]. rewrite <- ztimes_nat by lia. rewrite <- K2. symmetry. apply (sp_ak _ _ _ _ O1).
Qed.
End Climb.
Theorem prime_bn254_p : prime bn254_p.
Proof. apply (chain_prime cert_bn254_p); [vm_cast_no_check (eq_refl true)|]. cbn [map cert_bn254_p fst In]. unfold bn254_p. tauto. Qed.
Definition bn254_roms : list rom := [rom_bn254_64; rom_bn254_32].
Lemma no2_bn254 : no_order2 bn254_p 0 2.
Proof. apply no2_ok; [exact prime_bn254_p|]. vm_cast_no_check (eq_refl true). Qed.
Lemma bn_p r : In r bn254_roms -> pmod r = bn254_p.
Proof. intros [<-|[<-|[]]]; apply Z.eqb_eq; vm_compute; reflexivity. Qed.
Lemma bn_AB r : In r bn254_roms -> cA r = 0 /\ cB r = 2.
Proof. intros [<-|[<-|[]]]; split; vm_compute; reflexivity. Qed.
Lemma bn_w r : In r bn254_roms -> weierstrass r.
Proof.
  intros H. split; [destruct H as [<-|[<-|[]]]; apply w_okb_ok; vm_compute; reflexivity|]. rewrite (bn_p r H). split; [exact prime_bn254_p|]. destruct (bn_AB r H) as [-> ->]. exact no2_bn254.
Qed.
Lemma bn_mpin r : In r bn254_roms -> mpin_rom r.
Proof.
  intros H. pose proof (bn_w r H) as W. split; [exact W|]. split.
  { split; [rewrite (bn_p r H); exact prime_bn254_p|]. split; [|rewrite (bn_p r H); destruct H as [<-|[<-|[]]]; vm_compute; discriminate].
    apply sqrt_okb_ok; [exact (proj1 (proj1 W))|]. destruct H as [<-|[<-|[]]]; vm_compute; reflexivity. }
  split; [destruct H as [<-|[<-|[]]]; reflexivity|].
  destruct H as [<-|[<-|[]]]; (split; [apply wide_okb_ok; vm_compute; reflexivity|]); (split; [apply wfb_ok; vm_compute; reflexivity|vm_compute; reflexivity]).
Qed.
(** a checked chain is a scalar multiple *)
Definition chainb (gx gy : Z) (l : list (bool * Z)) (x y k : Z) : bool := match climb (fun v => v mod bn254_p) 0 gx gy l gx gy 1 with Some (x', y', k') => (x' =? x) && (y' =? y) && (k' =? k) | None => false end.
Lemma chain_ok r gx gy l x y k : In r bn254_roms -> onb bn254_p 0 2 gx gy = true -> chainb gx gy l x y k = true -> w_times (pmod r) (cA r) (Aff gx gy) (Z.to_nat k) (Aff x y).
Proof.
  intros HR HO. unfold chainb. destruct (climb _ 0 gx gy l gx gy 1) as [[[x' y'] k']|] eqn:E; [|discriminate]. rewrite !andb_true_iff, !Z.eqb_eq. intros [[-> ->] ->].
  destruct (bn_AB r HR) as [EA EB]. apply onb_ok in HO.
  refine (proj2 (climb_times r (bn_w r HR) (fun v => v mod bn254_p) 0 gx gy l k x y _ EA _ E)); [intros v; rewrite (bn_p r HR); reflexivity|]. rewrite EA, EB, (bn_p r HR). exact HO.
Qed.
Lemma mp_digest : os2ip (SHA2 SHA256 mp_id) mod bn254_p + 1 = mp_x.
Proof. apply Z.eqb_eq. vm_cast_no_check (eq_refl true). Qed.
Lemma mp_on : onb bn254_p 0 2 mp_x mp_y = true. Proof. vm_cast_no_check (eq_refl true). Qed.
Lemma mp_on_s : onb bn254_p 0 2 mp_sx mp_sy = true. Proof. vm_cast_no_check (eq_refl true). Qed.
Lemma mp_not : ~ is_square bn254_p (((mp_x - 1) * (mp_x - 1) * (mp_x - 1) + 2) mod bn254_p).
Proof. apply ns_ok; [exact prime_bn254_p|]. vm_cast_no_check (eq_refl true). Qed.
Lemma mp_chain : chainb mp_x mp_y mp_1234 mp_fx mp_fy 1234 = true. Proof. vm_cast_no_check (eq_refl true). Qed.
Definition bn_gx : Z := bn254_p - 1.
Lemma bn_g_on : onb bn254_p 0 2 bn_gx 1 = true. Proof. vm_cast_no_check (eq_refl true). Qed.
Section Inst.
Variable r : rom.
Hypothesis HR : In r bn254_roms.
Notation p := (pmod r).
Lemma on_bn x y : onb bn254_p 0 2 x y = true -> on_w p (cA r) (cB r) (Aff x y).
Proof. intros H. destruct (bn_AB r HR) as [-> ->]. rewrite (bn_p r HR). apply onb_ok. exact H. Qed.
Lemma bn_cof : cofactor r = 1.
Proof. destruct HR as [<-|[<-|[]]]; vm_compute; reflexivity. Qed.
Lemma bn_N : mbytes r = 32%nat.
Proof. destruct HR as [<-|[<-|[]]]; reflexivity. Qed.
Lemma mp_maps : maps_to r (id_string SHA256 (mbytes r) mp_id) 1 (Aff mp_x mp_y).
Proof.
  unfold maps_to. rewrite bn_N. pose proof (SHA_len 32 SHA256 (or_introl eq_refl) mp_id) as L.
  assert (E0 : id_string SHA256 32 mp_id = SHA2 SHA256 mp_id) by reflexivity. rewrite E0. rewrite firstn_all2 by lia. rewrite (bn_p r HR).
  pose proof mp_digest as E. revert E. generalize (os2ip (SHA2 SHA256 mp_id) mod bn254_p). intros X E. assert (EX : X = mp_x - 1) by (rewrite <- E; symmetry; apply Z.add_simpl_r). unfold first_point. rewrite (bn_p r HR). change (Z.of_nat 1) with 1. rewrite E.
  split; [apply Z.ltb_lt; vm_compute; reflexivity|]. split; [|split; [discriminate|]].
  - exists mp_y. split; [exact (on_bn _ _ mp_on)|]. split; [apply Z.eqb_eq; vm_compute; reflexivity|]. rewrite bn_cof. change (Z.to_nat 1) with 1%nat. apply (wt_S _ _ _ 0 Inf); [constructor|constructor].
  - intros m Hm Q' [y [[_ [_ O]] _]]. exfalso. assert (m = 0%nat) by lia. subst m. rewrite Z.add_0_r in O. destruct (bn_AB r HR) as [EA EB]. rewrite EA, EB, (bn_p r HR) in O.
    rewrite Z.mul_0_l, Z.add_0_r, EX in O. apply mp_not. exists y. unfold cong in *. rewrite Z.mod_mod by (vm_compute; discriminate). exact O.
Qed.
Lemma mp_times : w_times p (cA r) (Aff mp_x mp_y) 1234 (Aff mp_fx mp_fy).
Proof. change 1234%nat with (Z.to_nat 1234). apply chain_ok with (l := mp_1234); [exact HR|exact mp_on|exact mp_chain]. Qed.
Lemma chord_eqb a x1 y1 x2 y2 l x3 y3 : negb (x1 =? x2) && ((l * (x2 - x1)) mod p =? (y2 - y1) mod p) && ((l * l - x1 - x2) mod p =? x3) && ((l * (x1 - (l * l - x1 - x2)) - y1) mod p =? y3) = true -> w_sum p a (Aff x1 y1) (Aff x2 y2) (Aff x3 y3).
Proof. rewrite !andb_true_iff, negb_true_iff, Z.eqb_neq, !Z.eqb_eq. intros [[[A B] <-] <-]. apply ws_chord; assumption. Qed.
Lemma mp_sum : w_sum p (cA r) (Aff mp_sx mp_sy) (Aff mp_fx mp_fy) (Aff bn_gx 1).
Proof. apply (chord_eqb _ _ _ _ _ mp_s). rewrite (bn_p r HR). vm_cast_no_check (eq_refl true). Qed.
End Inst.
