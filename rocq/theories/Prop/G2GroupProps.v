(** C61 (group law of G2) and C62 (scalar multiplication in G2).

    [e2_point r bt e P A] (Spec/Ecp2Spec.v): the ECP2 object P, whose excess counters are at most e, stands for the point A of the
    twist y^2 = x^3 + bt over F_p(i).  [e2_sum p A B C] (Spec/G2Sum.v) is the chord-and-tangent law and [e2_times p A n B] says
    B = A + ... + A (n terms).  [g2_curve r tw bt] (Spec/G2Curve.v) are the conditions on the ROM; C61_curves shows them for
    BLS12-381 and BN254 on both limb sizes.  Each theorem also says that no intermediate word overflows ([Some _]). *)
From Verif Require Import Base.Word Base.Arr Model.Big Model.Roms Model.Fp Model.Fp2 Model.Fp12 Model.Ecp2 Model.Ecp2Mul
  Spec.BigSpec Spec.RomSpec Spec.FpSpec Spec.EcpSpec Spec.TowerSpec Spec.TowerRep Spec.G2Spec Spec.G2Sum Spec.G2Curve Spec.Ecp2Spec
  Proof.RomCheck Proof.TowerInv Proof.BlsRoms Proof.BlsG2 Proof.MpinInst Proof.Primes Proof.SlopesMpin Proof.BlsInst Proof.EcpMul Proof.Ecp2Inst.
From Coq Require Import Lia.

(** ** the curves *)
Theorem C61_curves : (forall r, r = rom_bls381_64 \/ r = rom_bls381_32 -> g2_curve r MType (4, 4)) /\ (forall r, r = rom_bn254_64 \/ r = rom_bn254_32 -> g2_curve r DType (1, -1)).
Proof.
  split; intros r [-> | ->]; [apply bls_g2; left; reflexivity|apply bls_g2; right; left; reflexivity|apply bn_g2; left; reflexivity|apply bn_g2; right; left; reflexivity].
Qed.
Print Assumptions C61_curves.

(** ** C61: the law is a commutative group law *)
Theorem C61_group_law : forall r tw bt, g2_curve r tw bt -> let p := pmod r in
  (forall A B, on_e2 p bt A -> on_e2 p bt B -> exists C, e2_sum p A B C /\ on_e2 p bt C /\ (forall D, e2_sum p A B D -> D = C)) /\
  (forall A B C, on_e2 p bt A -> on_e2 p bt B -> e2_sum p A B C -> e2_sum p B A C) /\
  (forall A, on_e2 p bt A -> e2_sum p Inf2 A A /\ on_e2 p bt (e2_neg p A) /\ e2_sum p A (e2_neg p A) Inf2) /\
  (forall A B C AB BC S, on_e2 p bt A -> on_e2 p bt B -> on_e2 p bt C -> e2_sum p A B AB -> e2_sum p B C BC -> e2_sum p AB C S -> e2_sum p A BC S).
Proof.
  intros r tw bt HG p. split; [|split; [|split]].
  - intros A B HA HB. destruct (i_total r tw bt HG A B HA HB) as [C [C1 C2]]. exists C. split; [exact C1|]. split; [exact C2|]. intros D HD. exact (i_fun r tw bt HG A B D C HA HB HD C1).
  - exact (i_comm r tw bt HG).
  - intros A HA. split; [constructor|]. exact (i_inverse r tw bt HG A HA).
  - exact (i_assoc r tw bt HG).
Qed.
Print Assumptions C61_group_law.

Section C.
Variables (r : rom) (tw : twist) (bt : Z2).
Hypothesis HG : g2_curve r tw bt.
Notation p := (pmod r).
Notation bi := (r_CURVE_B_I r).

(** the operations *)
Theorem C61_g2_new : forall e x y u v, big_wf (r_cfg r) (r_CURVE_B r) -> 2 <= e <= 16200 -> el2 r e x u -> el2 r e y v ->
  exists P, ecp2_new_fp2s r tw x y = Some P /\
   ((eq2 p (mul2 v v) (add2 (mul2 (mul2 u u) u) bt) /\ e2_point r bt e P (Aff2 (red2 p u) (red2 p v))) \/
    (~ eq2 p (mul2 v v) (add2 (mul2 (mul2 u u) u) bt) /\ e2_point r bt e P Inf2)).
Proof. exact (i_new r tw bt HG). Qed.
Theorem C61_g2_add : forall P Q A B, e2_point r bt 16200 P A -> e2_point r bt 16200 Q B ->
  exists R C, ecp2_add r tw bi P Q = Some R /\ e2_sum p A B C /\ e2_point r bt 30 R C.
Proof. exact (i_add r tw bt HG). Qed.
Theorem C61_g2_dbl : forall P A, e2_point r bt 16200 P A -> exists R C, ecp2_dbl r tw bi P = Some R /\ e2_sum p A A C /\ e2_point r bt 30 R C.
Proof. exact (i_dbl r tw bt HG). Qed.
Theorem C61_g2_sub : forall P Q A B, e2_point r bt 16200 P A -> e2_point r bt 1800 Q B ->
  exists R C, ecp2_sub r tw bi P Q = Some R /\ e2_sum p A (e2_neg p B) C /\ e2_point r bt 30 R C.
Proof. exact (i_sub r tw bt HG). Qed.
Theorem C61_g2_neg : forall e P A, 9 * e <= FEXCESS r -> e2_point r bt e P A -> exists R, ecp2_neg r P = Some R /\ e2_point r bt (9 * e) R (e2_neg p A).
Proof. exact (i_neg r tw bt HG). Qed.
Theorem C61_g2_equals : forall e P Q A B, e <= 524288 -> e2_point r bt e P A -> e2_point r bt e Q B ->
  exists b, ecp2_equals r P Q = Some b /\ (b = true <-> A = B).
Proof. exact (i_equals r tw bt HG). Qed.
Theorem C61_g2_is_infinity : forall e P A, e2_point r bt e P A -> ecp2_is_infinity r P = Some (match A with Inf2 => true | _ => false end).
Proof. exact (i_is_inf r tw bt HG). Qed.
(** an object in affine form: its coordinates are x, y and 1 *)
Definition affine_form (P : ecp2) (A : point2) : Prop :=
  match A with Inf2 => True | Aff2 x y => el2 r 16200 (x2 P) x /\ el2 r 16200 (y2 P) y /\ el2 r 16200 (z2 P) (1, 0) end.
Theorem C61_g2_affine : forall e P A, 2 <= e <= 16200 -> e2_point r bt e P A -> exists R, ecp2_affine r P = Some R /\ e2_point r bt e R A /\ affine_form R A.
Proof. exact (i_affine r tw bt HG). Qed.

(** ** C62: for every scalar (up to the Big range less four bits), the product is the multiple of the point, in affine form *)
Theorem C62_g2_mul : forall P A e, e2_point r bt 1800 P A -> big_wf (r_cfg r) e -> bval (r_cfg r) e + 2 < 2 ^ (NBITS r - 4) ->
  exists R B, ecp2_mul r tw bi P e = Some R /\ e2_times p A (Z.to_nat (bval (r_cfg r) e)) B /\ e2_point r bt 1800 R B /\ affine_form R B.
Proof. exact (i_mul r tw bt HG). Qed.
(** the multiple is unique, and multiples compose *)
Theorem C62_times_facts : forall A, on_e2 p bt A ->
  (forall n, exists B, e2_times p A n B) /\
  (forall n B B', e2_times p A n B -> e2_times p A n B' -> B = B') /\
  (forall n m B C, e2_times p A n B -> e2_times p B m C -> e2_times p A (m * n) C) /\
  (forall n m B C S, e2_times p A n B -> e2_times p A m C -> e2_sum p B C S -> e2_times p A (n + m) S).
Proof.
  intros A O. split; [|split; [|split]].
  - intros n. exact (i_times_total r tw bt HG A n O).
  - intros n B B'. exact (i_times_fun r tw bt HG A n B B' O).
  - intros n m B C. exact (i_times_mul r tw bt HG A n m B C O).
  - intros n m B C S. exact (i_times_add r tw bt HG A n m B C S O).
Qed.
(** e (f P) and f (e P) are equal points *)
Theorem C62_g2_mul_commutes : forall P A e f, e2_point r bt 1800 P A ->
  big_wf (r_cfg r) e -> bval (r_cfg r) e + 2 < 2 ^ (NBITS r - 4) -> big_wf (r_cfg r) f -> bval (r_cfg r) f + 2 < 2 ^ (NBITS r - 4) ->
  exists eP fP efP feP, ecp2_mul r tw bi P e = Some eP /\ ecp2_mul r tw bi P f = Some fP /\ ecp2_mul r tw bi fP e = Some efP /\ ecp2_mul r tw bi eP f = Some feP /\ ecp2_equals r efP feP = Some true.
Proof.
  intros P A e f HP He Me Hf Mf. pose proof (proj1 HP) as O.
  destruct (C62_g2_mul P A e HP He Me) as [eP [B [E1 [E2 [E3 _]]]]]. destruct (C62_g2_mul P A f HP Hf Mf) as [fP [C [F1 [F2 [F3 _]]]]].
  destruct (C62_g2_mul fP C e F3 He Me) as [efP [X [G1 [G2 [G3 _]]]]]. destruct (C62_g2_mul eP B f E3 Hf Mf) as [feP [Y [H1 [H2 [H3 _]]]]].
  exists eP, fP, efP, feP. split; [exact E1|]. split; [exact F1|]. split; [exact G1|]. split; [exact H1|].
  destruct (C62_times_facts A O) as [_ [FU [FM _]]]. pose proof (FM _ _ _ _ F2 G2) as M1. pose proof (FM _ _ _ _ E2 H2) as M2. rewrite Nat.mul_comm in M2.
  pose proof (FU _ _ _ M1 M2) as EQ. destruct (C61_g2_equals 1800 efP feP X Y ltac:(lia) G3 H3) as [b [B1 B2]]. rewrite B1, (proj2 B2 EQ). reflexivity.
Qed.
(** e P + f P and g P are equal points if g = e + f *)
Theorem C62_g2_mul_distributes : forall P A e f g, e2_point r bt 1800 P A ->
  big_wf (r_cfg r) e -> big_wf (r_cfg r) f -> big_wf (r_cfg r) g -> bval (r_cfg r) g + 2 < 2 ^ (NBITS r - 4) -> bval (r_cfg r) g = bval (r_cfg r) e + bval (r_cfg r) f ->
  0 <= bval (r_cfg r) e -> 0 <= bval (r_cfg r) f ->
  exists eP fP gP S, ecp2_mul r tw bi P e = Some eP /\ ecp2_mul r tw bi P f = Some fP /\ ecp2_mul r tw bi P g = Some gP /\ ecp2_add r tw bi eP fP = Some S /\ ecp2_equals r S gP = Some true.
Proof.
  intros P A e f g HP He Hf Hg Mg Eg e0 f0. pose proof (proj1 HP) as O.
  destruct (C62_g2_mul P A e HP He ltac:(lia)) as [eP [B [E1 [E2 [E3 _]]]]]. destruct (C62_g2_mul P A f HP Hf ltac:(lia)) as [fP [C [F1 [F2 [F3 _]]]]]. destruct (C62_g2_mul P A g HP Hg Mg) as [gP [G [G1 [G2 [G3 _]]]]].
  destruct (C61_g2_add eP fP B C (obj_mono r tw bt HG 1800 16200 _ _ ltac:(lia) E3) (obj_mono r tw bt HG 1800 16200 _ _ ltac:(lia) F3)) as [S [T [S1 [S2 S3]]]].
  exists eP, fP, gP, S. split; [exact E1|]. split; [exact F1|]. split; [exact G1|]. split; [exact S1|].
  destruct (C62_times_facts A O) as [_ [FU [_ FA]]]. pose proof (FA _ _ _ _ _ E2 F2 S2) as M. rewrite <- Z2Nat.inj_add, <- Eg in M by assumption.
  pose proof (FU _ _ _ M G2) as EQ. destruct (C61_g2_equals 1800 S gP T G ltac:(lia) (obj_mono r tw bt HG 30 1800 _ _ ltac:(lia) S3) G3) as [b [B1 B2]]. rewrite B1, (proj2 B2 EQ). reflexivity.
Qed.
End C.
Print Assumptions C61_g2_new.
Print Assumptions C61_g2_add.
Print Assumptions C61_g2_dbl.
Print Assumptions C61_g2_sub.
Print Assumptions C61_g2_neg.
Print Assumptions C61_g2_equals.
Print Assumptions C61_g2_is_infinity.
Print Assumptions C61_g2_affine.
Print Assumptions C62_g2_mul.
Print Assumptions C62_times_facts.
Print Assumptions C62_g2_mul_commutes.
Print Assumptions C62_g2_mul_distributes.

(** *** examples: the generators that the ROMs give (CURVE_PXA, CURVE_PXB, CURVE_PYA, CURVE_PYB) are represented by objects that meet
    the hypotheses above, and the scalars up to the group orders are within the range of C62_g2_mul *)
Definition gen_bls : point2 := Aff2 (0x024aa2b2f08f0a91260805272dc51051c6e47ad4fa403b02b4510b647ae3d1770bac0326a805bbefd48056c8c121bdb8, 0x13e02b6052719f607dacd3a088274f65596bd0d09920b61ab5da61bbdc7f5049334cf11213945d57e5ac7d055d042b7e)
  (0x0ce5d527727d6e118cc9cdc6da2e351aadfd9baa8cbdd3a76d429a695160d12c923ac9cc3baca289e193548608b82801, 0x0606c4a02ea734cc32acd2b02bc28b99cb3e287e85a763af267492ab572e99ab3f370d275cec1da1aaa9075ff05f79be).
Definition gen_bn : point2 := Aff2 (0x061a10bb519eb62feb8d8c7e8c61edb6a4648bbb4898bf0d91ee4224c803fb2b, 0x0516aaf9ba737833310aa78c5982aa5b1f4d746bae3784b70d8c34c1e7d54cf3)
  (0x021897a06baf93439a90e096698c822329bd0ae6bdbe09bd19f0e07891cd2b9a, 0x0ebb2b0e7c8b15268f6d4456f5f38d37b09006ffd739c9578a2d1aec6b3ace9b).
Example C61_generators_on : on_e2 bls381_p (4, 4) gen_bls /\ on_e2 bn254_p (1, -1) gen_bn.
Proof. split; (split; [split; split; vm_compute; congruence|]; split; [split; split; vm_compute; congruence|]; split; vm_compute; reflexivity). Qed.
(** ecp2.rs:761-772 generator, with the constants of the ROM *)
Definition generator (r : rom) (tw : twist) (xa xb ya yb : list Z) : option ecp2 := x <- fp2_new_bigs r xa xb ;; y <- fp2_new_bigs r ya yb ;; ecp2_new_fp2s r tw x y.
Lemma gen_obj r tw bt xa xb ya yb : g2_curve r tw bt -> big_wf (r_cfg r) (r_CURVE_B r) -> big_wf (r_cfg r) xa -> big_wf (r_cfg r) xb -> big_wf (r_cfg r) ya -> big_wf (r_cfg r) yb ->
  let u := (bval (r_cfg r) xa, bval (r_cfg r) xb) in let v := (bval (r_cfg r) ya, bval (r_cfg r) yb) in on_e2 (pmod r) bt (Aff2 u v) ->
  exists P, generator r tw xa xb ya yb = Some P /\ e2_point r bt 1800 P (Aff2 u v).
Proof.
  intros HG HB W1 W2 W3 W4 u v [R1 [R2 O]]. destruct (el2_new_bigs r (proj1 HG) (proj1 (proj1 (proj2 HG))) xa xb W1 W2) as [x [X1 X2]]. destruct (el2_new_bigs r (proj1 HG) (proj1 (proj1 (proj2 HG))) ya yb W3 W4) as [y [Y1 Y2]].
  unfold generator. rewrite X1. cbn [bind]. rewrite Y1. cbn [bind]. destruct (C61_g2_new r tw bt HG 2 x y u v HB ltac:(lia) X2 Y2) as [P [P1 P2]]. exists P. split; [exact P1|].
  assert (RI : forall w, res2 (pmod r) w -> red2 (pmod r) w = w) by (intros [a b] [Ha Hb]; unfold red2; cbn [fst snd] in *; rewrite !Z.mod_small by assumption; reflexivity).
  destruct P2 as [[_ P2]|[N _]]; [|contradiction]. rewrite (RI u R1), (RI v R2) in P2. exact (obj_mono r tw bt HG 2 1800 P _ ltac:(lia) P2).
Qed.
Example C61_generator_bls381_64 : exists P, generator rom_bls381_64 MType
    [0x8056C8C121BDB8; 0x300C9AA016EFBF5; 0xB647AE3D1770BA; 0x353E900EC0AD144; 0x32DC51051C6E47A; 0x23C2A449820149; 0x24AA2B2F] [0x1AC7D055D042B7E; 0x33C4484E51755F9; 0x21BBDC7F5049334; 0x3426482D86AD769; 0x88274F65596BD0; 0x9C67D81F6B34E8; 0x13E02B605]
    [0x193548608B82801; 0x2B2730EEB28A278; 0x1A695160D12C923; 0x2AA32F74E9DB50A; 0x2DA2E351AADFD9B; 0x9F5B8463327371; 0xCE5D5277] [0x2A9075FF05F79BE; 0x1C349D73B07686A; 0x12AB572E99AB3F3; 0x1FA169D8EBC99D2; 0x2BC28B99CB3E28; 0x3A9CD330CAB34AC; 0x606C4A02] = Some P /\ e2_point rom_bls381_64 (4, 4) 1800 P gen_bls.
Proof.
  assert (HR : In rom_bls381_64 bls_roms) by (left; reflexivity).
  apply (gen_obj rom_bls381_64 MType (4, 4)); [exact (bls_g2 _ HR)|apply big_wfb_ok; vm_compute; reflexivity|apply big_wfb_ok; vm_compute; reflexivity|apply big_wfb_ok; vm_compute; reflexivity|apply big_wfb_ok; vm_compute; reflexivity|apply big_wfb_ok; vm_compute; reflexivity|].
  rewrite (bls_p _ HR). exact (proj1 C61_generators_on).
Qed.
Example C61_generator_bls381_32 : exists P, generator rom_bls381_32 MType
    [0x121BDB8; 0x402B646; 0x16EFBF5; 0x18064D50; 0x1D1770BA; 0x5B23D71; 0xC0AD144; 0x1A9F4807; 0x11C6E47A; 0x196E2882; 0x9820149; 0x11E1522; 0x4AA2B2F; 0x1] [0x1D042B7E; 0xD63E82A; 0x51755F9; 0x19E22427; 0x15049334; 0x10DDEE3F; 0x186AD769; 0x1A132416; 0x5596BD0; 0x4413A7B; 0x1F6B34E8; 0x4E33EC0; 0x1E02B605; 0x9]
    [0x8B82801; 0xC9AA430; 0xB28A278; 0x15939877; 0xD12C923; 0xD34A8B0; 0xE9DB50A; 0x155197BA; 0x1AADFD9B; 0x16D171A8; 0x3327371; 0x4FADC23; 0xE5D5277; 0x6] [0x105F79BE; 0x15483AFF; 0x1B07686A; 0xE1A4EB9; 0x99AB3F3; 0x955AB97; 0xEBC99D2; 0xFD0B4EC; 0x19CB3E28; 0x15E145C; 0xCAB34AC; 0x1D4E6998; 0x6C4A02; 0x3] = Some P /\ e2_point rom_bls381_32 (4, 4) 1800 P gen_bls.
Proof.
  assert (HR : In rom_bls381_32 bls_roms) by (right; left; reflexivity).
  apply (gen_obj rom_bls381_32 MType (4, 4)); [exact (bls_g2 _ HR)|apply big_wfb_ok; vm_compute; reflexivity|apply big_wfb_ok; vm_compute; reflexivity|apply big_wfb_ok; vm_compute; reflexivity|apply big_wfb_ok; vm_compute; reflexivity|apply big_wfb_ok; vm_compute; reflexivity|].
  rewrite (bls_p _ HR). exact (proj1 C61_generators_on).
Qed.
Example C61_generator_bn254_64 : exists P, generator rom_bn254_64 DType
    [0xEE4224C803FB2B; 0x8BBB4898BF0D91; 0x7E8C61EDB6A464; 0x519EB62FEB8D8C; 0x61A10BB] [0x8C34C1E7D54CF3; 0x746BAE3784B70D; 0x8C5982AA5B1F4D; 0xBA737833310AA7; 0x516AAF9]
    [0xF0E07891CD2B9A; 0xAE6BDBE09BD19; 0x96698C822329BD; 0x6BAF93439A90E0; 0x21897A0] [0x2D1AEC6B3ACE9B; 0x6FFD739C9578A; 0x56F5F38D37B090; 0x7C8B15268F6D44; 0xEBB2B0E] = Some P /\ e2_point rom_bn254_64 (1, -1) 1800 P gen_bn.
Proof.
  assert (HR : In rom_bn254_64 bn254_roms) by (left; reflexivity).
  apply (gen_obj rom_bn254_64 DType (1, -1)); [exact (bn_g2 _ HR)|apply big_wfb_ok; vm_compute; reflexivity|apply big_wfb_ok; vm_compute; reflexivity|apply big_wfb_ok; vm_compute; reflexivity|apply big_wfb_ok; vm_compute; reflexivity|apply big_wfb_ok; vm_compute; reflexivity|].
  rewrite (bn_p _ HR). exact (proj2 C61_generators_on).
Qed.
Example C61_generator_bn254_32 : exists P, generator rom_bn254_32 DType
    [0x803FB2B; 0xEE4224C; 0x8BF0D91; 0x8BBB489; 0xDB6A464; 0x7E8C61E; 0xFEB8D8C; 0x519EB62; 0x61A10BB; 0x0] [0x7D54CF3; 0x8C34C1E; 0x784B70D; 0x746BAE3; 0xA5B1F4D; 0x8C5982A; 0x3310AA7; 0xBA73783; 0x516AAF9; 0x0]
    [0x1CD2B9A; 0xF0E0789; 0xE09BD19; 0xAE6BDB; 0x22329BD; 0x96698C8; 0x39A90E0; 0x6BAF934; 0x21897A0; 0x0] [0xB3ACE9B; 0x2D1AEC6; 0x9C9578A; 0x6FFD73; 0xD37B090; 0x56F5F38; 0x68F6D44; 0x7C8B152; 0xEBB2B0E; 0x0] = Some P /\ e2_point rom_bn254_32 (1, -1) 1800 P gen_bn.
Proof.
  assert (HR : In rom_bn254_32 bn254_roms) by (right; left; reflexivity).
  apply (gen_obj rom_bn254_32 DType (1, -1)); [exact (bn_g2 _ HR)|apply big_wfb_ok; vm_compute; reflexivity|apply big_wfb_ok; vm_compute; reflexivity|apply big_wfb_ok; vm_compute; reflexivity|apply big_wfb_ok; vm_compute; reflexivity|apply big_wfb_ok; vm_compute; reflexivity|].
  rewrite (bn_p _ HR). exact (proj2 C61_generators_on).
Qed.
Example C62_scalars : Forall (fun r => bval (r_cfg r) (r_ORDER r) + 2 < 2 ^ (NBITS r - 4)) [rom_bls381_64; rom_bls381_32; rom_bn254_64; rom_bn254_32].
Proof. repeat (apply Forall_cons; [vm_compute; reflexivity|]). apply Forall_nil. Qed.
