(** C60 (BLS point serialisation, G2), for the two bls381 configurations. *)
From Verif Require Import Base.Word Base.Arr Model.Big Model.Roms Model.Fp Model.Fp2 Model.HashToCurve Model.Bls Model.Ecp2 Model.BlsG2
  Spec.Bytes Spec.BigSpec Spec.RomSpec Spec.FpSpec Spec.EcpSpec Spec.TowerSpec Spec.TowerRep Spec.BlsSpec Spec.G2Spec Spec.Ecp2Spec
  Proof.TowerRing Proof.BlsRoms Proof.BlsInst Proof.BlsG2 Proof.BlsG2Dec Proof.BlsG2Top Proof.Primes.
From Coq Require Import Lia.

(** The twist y^2 = x^3 + 4 + 4i over F_p(i) *)
Definition on_g2 (A : point2) : Prop := on_e2 bls381_p (4, 4) A.
(** [P] represents [A], with excess counters of at most 1800 (those of a freshly decoded point are at most 18) *)
Definition g2_obj (r : rom) (P : ecp2) (A : point2) : Prop := e2_point r (4, 4) 1800 P A.
Lemma on_g2_r r A : In r bls_roms -> on_g2 A <-> on_e2 (pmod r) (4, 4) A.
Proof. intros H. rewrite (bls_p r H). reflexivity. Qed.

(** A point is written in the compressed format of Spec/G2Spec.v (never a panic), provided the imaginary part of y is not 0 *)
Theorem C60_g2_serialize r bd P A : In r bls_roms -> g2_obj r P A -> (forall x y, A = Aff2 x y -> x_writable2 r P x /\ snd y <> 0) ->
  serialize_g2 r bd P = Some (compress2 bls381_p 48 A).
Proof. intros HR HP HW. rewrite <- (bls_p r HR), <- (bls_N r HR). apply (serialize2_ok r HR bd 1800); [lia|exact HP|exact HW]. Qed.
Print Assumptions C60_g2_serialize.
(** Every point is written in the uncompressed format *)
Theorem C60_g2_serialize_plain r P A : In r bls_roms -> g2_obj r P A -> (forall x y, A = Aff2 x y -> x_writable2 r P x /\ y_writable2 r P y) ->
  serialize_uncompressed_g2 r P = Some (plain2 48 A).
Proof. intros HR HP HW. rewrite <- (bls_N r HR). apply (serialize2_u_ok r HR 1800); [lia|exact HP|exact HW]. Qed.
Print Assumptions C60_g2_serialize_plain.

Definition writable2 (r : rom) (P : ecp2) (A : point2) : Prop := match A with Inf2 => True | Aff2 x y => x_writable2 r P x /\ y_writable2 r P y end.
(** Every uncompressed encoding of a curve point is decoded to that point *)
Theorem C60_g2_deserialize_plain r A : In r bls_roms -> on_g2 A -> exists P, deserialize_g2 r (plain2 48 A) = Some (Ok P) /\ g2_obj r P A /\ writable2 r P A.
Proof.
  intros HR O. rewrite (on_g2_r r A HR) in O. rewrite <- (bls_N r HR). destruct A as [|x y].
  - destruct (dec2_inf r HR) as [_ [P [P1 P2]]]. exists P. split; [exact P1|]. split; [exact (point_mono r HR 2 1800 P _ ltac:(lia) P2)|exact I].
  - destruct (dec_top_u r HR x y O) as [P [P1 [P2 P3]]]. exists P. split; [exact P1|]. split; [exact (point_mono r HR 2 1800 P _ ltac:(lia) P2)|exact P3].
Qed.
Print Assumptions C60_g2_deserialize_plain.
(** A compressed encoding of a point is decoded to that point if neither component of y is 0 *)
Theorem C60_g2_deserialize r A : In r bls_roms -> on_g2 A -> (forall x y, A = Aff2 x y -> fst y <> 0 /\ snd y <> 0) ->
  exists P, deserialize_g2 r (compress2 bls381_p 48 A) = Some (Ok P) /\ g2_obj r P A /\ writable2 r P A.
Proof.
  intros HR O HY. rewrite (on_g2_r r A HR) in O. rewrite <- (bls_p r HR), <- (bls_N r HR). destruct A as [|x y].
  - destruct (dec2_inf r HR) as [[P [P1 P2]] _]. exists P. split; [exact P1|]. split; [exact (point_mono r HR 2 1800 P _ ltac:(lia) P2)|exact I].
  - destruct (HY x y eq_refl) as [Y0 Y1]. destruct (dec_top_c r HR x y O) as [_ D]. destruct (D Y0) as [P [P1 [P2 [_ P3]]]]. exists P. split; [exact P1|]. split; [exact (point_mono r HR 18 1800 P _ ltac:(lia) (P3 Y1))|]. split; [exact P2|]. split; right; right; assumption.
Qed.
Print Assumptions C60_g2_deserialize.
(** if y is real, a point with the right x is found, but which of y and -y is not guaranteed *)
Theorem C60_g2_deserialize_real r x y : In r bls_roms -> on_g2 (Aff2 x y) -> snd y = 0 ->
  exists P, deserialize_g2 r (compress2 bls381_p 48 (Aff2 x y)) = Some (Ok P) /\ (g2_obj r P (Aff2 x y) \/ g2_obj r P (e2_neg bls381_p (Aff2 x y))).
Proof.
  intros HR O Y1. rewrite (on_g2_r r _ HR) in O. rewrite <- (bls_p r HR), <- (bls_N r HR).
  assert (Y0 : fst y <> 0) by (intros Y0; apply (no_y0 r HR x y O); destruct y; cbn [fst snd] in *; subst; reflexivity).
  destruct (dec_top_c r HR x y O) as [_ D]. destruct (D Y0) as [P [P1 [_ [P2 _]]]]. exists P. split; [exact P1|]. destruct P2 as [P2|P2]; [left|right]; exact (point_mono r HR 18 1800 P _ ltac:(lia) P2).
Qed.
Print Assumptions C60_g2_deserialize_real.
(** if y is purely imaginary, the encoding is refused *)
Theorem C60_g2_deserialize_imag r x y : In r bls_roms -> on_g2 (Aff2 x y) -> fst y = 0 -> deserialize_g2 r (compress2 bls381_p 48 (Aff2 x y)) = Some (Err InvalidPoint).
Proof. intros HR O Y0. rewrite (on_g2_r r _ HR) in O. rewrite <- (bls_p r HR), <- (bls_N r HR). exact (proj1 (dec_top_c r HR x y O) Y0). Qed.
Print Assumptions C60_g2_deserialize_imag.
(** Every byte string that encodes no curve point is refused, with the error that its length and flags call for: never a panic, never a point. *)
Theorem C60_g2_reject r b : In r bls_roms -> bytes b -> (forall A, on_g2 A -> b <> compress2 bls381_p 48 A /\ b <> plain2 48 A) ->
  deserialize_g2 r b = Some (Err (g2_error 48 b)).
Proof.
  intros HR Hb NO. rewrite <- (bls_p r HR), <- (bls_N r HR) in NO. rewrite <- (bls_N r HR). apply (dec_top_err r HR b Hb). intros A O. apply NO. rewrite (on_g2_r r A HR). exact O.
Qed.
Print Assumptions C60_g2_reject.
(** Round trips.  A decoded point is written back as the bytes it came from. *)
Theorem C60_g2_bytes_round_trip r bd A : In r bls_roms -> on_g2 A ->
  (exists P, deserialize_g2 r (plain2 48 A) = Some (Ok P) /\ serialize_uncompressed_g2 r P = Some (plain2 48 A)) /\
  ((forall x y, A = Aff2 x y -> fst y <> 0 /\ snd y <> 0) -> exists P, deserialize_g2 r (compress2 bls381_p 48 A) = Some (Ok P) /\ serialize_g2 r bd P = Some (compress2 bls381_p 48 A)).
Proof.
  intros HR O. split.
  - destruct (C60_g2_deserialize_plain r A HR O) as [P [P1 [P2 P3]]]. exists P. split; [exact P1|]. apply C60_g2_serialize_plain; [exact HR|exact P2|]. intros x y ->. exact P3.
  - intros HY. destruct (C60_g2_deserialize r A HR O HY) as [P [P1 [P2 P3]]]. exists P. split; [exact P1|]. apply C60_g2_serialize; [exact HR|exact P2|]. intros x y ->. split; [exact (proj1 P3)|exact (proj2 (HY x y eq_refl))].
Qed.
Print Assumptions C60_g2_bytes_round_trip.
(** A point survives being written and read *)
Theorem C60_g2_point_round_trip r bd P A : In r bls_roms -> g2_obj r P A -> writable2 r P A ->
  (exists b Q, serialize_uncompressed_g2 r P = Some b /\ length b = 192%nat /\ deserialize_g2 r b = Some (Ok Q) /\ g2_obj r Q A) /\
  ((forall x y, A = Aff2 x y -> fst y <> 0 /\ snd y <> 0) -> exists b Q, serialize_g2 r bd P = Some b /\ length b = 96%nat /\ deserialize_g2 r b = Some (Ok Q) /\ g2_obj r Q A).
Proof.
  intros HR HP HW. pose proof (proj1 HP) as O. rewrite <- (on_g2_r r A HR) in O. split.
  - destruct (C60_g2_deserialize_plain r A HR O) as [Q [Q1 [Q2 _]]]. exists (plain2 48 A), Q. split; [apply C60_g2_serialize_plain; [exact HR|exact HP|intros x y ->; exact HW]|]. split; [|auto]. destruct A; unfold plain2; rewrite !app_length, ?i2osp_length, ?repeat_length; reflexivity.
  - intros HY. destruct (C60_g2_deserialize r A HR O HY) as [Q [Q1 [Q2 _]]]. exists (compress2 bls381_p 48 A), Q. split; [apply C60_g2_serialize; [exact HR|exact HP|intros x y ->; split; [exact (proj1 HW)|exact (proj2 (HY x y eq_refl))]]|]. split; [|auto]. destruct A; unfold compress2; rewrite !app_length, ?i2osp_length, ?repeat_length; reflexivity.
Qed.
Print Assumptions C60_g2_point_round_trip.

(** *** what fails *)
Definition im_x : Z2 := (0x3639e164fd0ebf1af951d3df7edc85b23817d0193ab6b50d2aff3f42de76ff5f42248827ca67f0d54b5daea966e7906, 0x2ebda9645cc3ae5b9dfe63cff1510c45294efb3d8175125d626ebf747e31ebe8e7b11bdab5f3a60c85eefa2722beb5b).
Lemma im_on : on_g2 (Aff2 im_x (0, 1)).
Proof. split; [split; split; vm_compute; congruence|]. split; [split; split; vm_compute; congruence|]. split; vm_compute; reflexivity. Qed.
(** a point of the curve whose compressed encoding is written but cannot be read back *)
Theorem C60_imaginary_y_refuted : exists A, on_g2 A /\ forall r bd, In r bls_roms -> exists P, g2_obj r P A /\ serialize_g2 r bd P = Some (compress2 bls381_p 48 A) /\ deserialize_g2 r (compress2 bls381_p 48 A) = Some (Err InvalidPoint).
Proof.
  exists (Aff2 im_x (0, 1)). split; [exact im_on|]. intros r bd HR. destruct (C60_g2_deserialize_plain r _ HR im_on) as [P [_ [P2 P3]]]. exists P. split; [exact P2|]. split.
  - apply C60_g2_serialize; [exact HR|exact P2|]. intros x y E. injection E as <- <-. split; [exact (proj1 P3)|cbn [snd]; lia].
  - exact (C60_g2_deserialize_imag r _ _ HR im_on eq_refl).
Qed.
Print Assumptions C60_imaginary_y_refuted.
Definition re_x : Z2 := (0x9f1477ff0430ca4808b4b98f3ce959fcb5be667df6ef1073e182a4f887fa0f0b7fdd6105d99e027bba24c6b4e932032, 0xc2b2b8487f8e8d648e4f7905c0943b14474f62dd4726f98e902923c7fa2518eab1519d0cd9eef39aad762206d086ced).
Definition re_A (k : Z) : point2 := Aff2 re_x (k mod bls381_p, 0).
Lemma re_on k : k = 3 \/ k = -3 -> on_g2 (re_A k).
Proof. intros [-> | ->]; (split; [split; split; vm_compute; congruence|]; split; [split; split; vm_compute; congruence|]; split; vm_compute; reflexivity). Qed.
Definition re_ser (r : rom) (bd : build) (k : Z) : option (list Z) := match deserialize_g2 r (plain2 48 (re_A k)) with Some (Ok P) => serialize_g2 r bd P | _ => None end.
Lemma re_same r bd : In r bls_roms -> (exists s, re_ser r bd 3 = Some s /\ re_ser r bd (-3) = Some s) ->
  exists P Q s, g2_obj r P (re_A 3) /\ g2_obj r Q (re_A (-3)) /\ serialize_g2 r bd P = Some s /\ serialize_g2 r bd Q = Some s.
Proof.
  intros HR [s [E1 E2]]. destruct (C60_g2_deserialize_plain r _ HR (re_on 3 (or_introl eq_refl))) as [P [P1 [P2 _]]]. destruct (C60_g2_deserialize_plain r _ HR (re_on (-3) (or_intror eq_refl))) as [Q [Q1 [Q2 _]]].
  unfold re_ser in E1, E2. rewrite P1 in E1. rewrite Q1 in E2. exists P, Q, s. auto.
Qed.
(** two points of the curve, a point and its opposite, that are written as the same compressed encoding (64-bit limbs) *)
Theorem C60_real_y_refuted : exists A B, on_g2 A /\ on_g2 B /\ A <> B /\ compress2 bls381_p 48 A <> compress2 bls381_p 48 B /\
  forall bd, let r := rom_bls381_64 in exists P Q s, g2_obj r P A /\ g2_obj r Q B /\ serialize_g2 r bd P = Some s /\ serialize_g2 r bd Q = Some s.
Proof.
  exists (re_A 3), (re_A (-3)). split; [apply re_on; auto|]. split; [apply re_on; auto|]. split; [intros E; injection E as E; revert E; vm_compute; discriminate|]. split; [vm_compute; discriminate|].
  intros bd r. apply re_same; [left; reflexivity|]. destruct bd; (eexists; split; [vm_compute; reflexivity|vm_compute; reflexivity]).
Qed.
Print Assumptions C60_real_y_refuted.

(** *** examples: the generator of G2 *)
Definition g2x_gen : Z2 := (0x024aa2b2f08f0a91260805272dc51051c6e47ad4fa403b02b4510b647ae3d1770bac0326a805bbefd48056c8c121bdb8, 0x13e02b6052719f607dacd3a088274f65596bd0d09920b61ab5da61bbdc7f5049334cf11213945d57e5ac7d055d042b7e).
Definition g2y_gen : Z2 := (0x0ce5d527727d6e118cc9cdc6da2e351aadfd9baa8cbdd3a76d429a695160d12c923ac9cc3baca289e193548608b82801, 0x0606c4a02ea734cc32acd2b02bc28b99cb3e287e85a763af267492ab572e99ab3f370d275cec1da1aaa9075ff05f79be).
Example C60_generator : on_g2 (Aff2 g2x_gen g2y_gen) /\ fst g2y_gen <> 0 /\ snd g2y_gen <> 0 /\
  compress2 bls381_p 48 (Aff2 g2x_gen g2y_gen) = i2osp 0x93e02b6052719f607dacd3a088274f65596bd0d09920b61ab5da61bbdc7f5049334cf11213945d57e5ac7d055d042b7e 48 ++ i2osp 0x024aa2b2f08f0a91260805272dc51051c6e47ad4fa403b02b4510b647ae3d1770bac0326a805bbefd48056c8c121bdb8 48.
Proof. split; [|split; [|split]]; [split; [split; split; vm_compute; congruence|]; split; [split; split; vm_compute; congruence|]; split; vm_compute; reflexivity|vm_compute; discriminate|vm_compute; discriminate|vm_compute; reflexivity]. Qed.
Example C60_rejects : deserialize_g2 rom_bls381_64 [] = Some (Err InvalidG2Size) /\ deserialize_g2 rom_bls381_64 (repeat 255 96) = Some (Err InvalidPoint) /\
  deserialize_g2 rom_bls381_64 (32 :: repeat 0 191) = Some (Err InvalidYFlag) /\ deserialize_g2 rom_bls381_32 (repeat 0 192) = Some (Err InvalidPoint).
Proof. split; [|split; [|split]]; vm_compute; reflexivity. Qed.
