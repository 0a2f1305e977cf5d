(** C44 (BLS secret keys) and C45 (BLS point serialisation, G1), for the two bls381 configurations. *)
From Verif Require Import Base.Word Base.Arr Model.Big Model.Roms Model.Sha2 Model.Fp Model.Fp2 Model.Ecp Model.HashToCurve Model.Bls
  Spec.Bytes Spec.BigSpec Spec.RomSpec Spec.FpSpec Spec.Sha2Spec Spec.XmdSpec Spec.CurveSpec Spec.EcpSpec Spec.BlsSpec
  Proof.BigMod Proof.FpBase Proof.Primes Proof.BlsRoms Proof.BlsG1 Proof.BlsInst.
From Coq Require Import Lia Znumtheory.

(** ** C44 *)
(** The group order of BLS12-381 *)
Definition n : Z := 0x73eda753299d7d483339d80809a1d80553bda402fffe5bfeffffffff00000001.

(** Every byte string: a length other than 32 is the size error, a value of at least n is the range error, and everything
    else is accepted as that integer.  (0 is accepted.) *)
Theorem C44_secret_key_from_bytes r b : In r bls_roms -> bytes b ->
  if negb (length b =? 32)%nat then secret_key_from_bytes r b = Some (Err InvalidSecretKeySize)
  else if n <=? os2ip b then secret_key_from_bytes r b = Some (Err InvalidSecretKeyRange)
  else exists sk, secret_key_from_bytes r b = Some (Ok sk) /\ big_wf (r_cfg r) sk /\ bval (r_cfg r) sk = os2ip b.
Proof.
  intros HR Hb. destruct (Nat.eqb_spec (length b) 32) as [L|L]; cbn [negb].
  - destruct (sk_from r HR b Hb L) as [w [W1 [W2 W3]]]. change bls381_n with n in W3. destruct (Z.leb_spec n (os2ip b)) as [G|G]; destruct (Z.ltb_spec (os2ip b) n); try lia; [exact W3|]. exists w. auto.
  - unfold secret_key_from_bytes. destruct (Nat.eqb_spec (length b) SECRET_KEY_BYTES); [contradiction|reflexivity].
Qed.
Print Assumptions C44_secret_key_from_bytes.

(** The two functions are mutually inverse: bytes -> key -> bytes ... *)
Theorem C44_bytes_round_trip r b sk : In r bls_roms -> bytes b -> secret_key_from_bytes r b = Some (Ok sk) -> secret_key_to_bytes r sk = Some b.
Proof.
  intros HR Hb H. pose proof (C44_secret_key_from_bytes r b HR Hb) as G. destruct (Nat.eqb_spec (length b) 32) as [L|L]; cbn [negb] in G; [|congruence].
  destruct (n <=? os2ip b); [congruence|]. destruct G as [s [G1 [G2 G3]]]. rewrite H in G1. injection G1 as <-. rewrite (sk_to r HR sk G2), G3. rewrite <- L. rewrite i2osp_os2ip by exact Hb. reflexivity.
Qed.
Print Assumptions C44_bytes_round_trip.
(** ... and key -> bytes -> key, for every key below the group order *)
Theorem C44_key_round_trip r sk : In r bls_roms -> big_wf (r_cfg r) sk -> bval (r_cfg r) sk < n ->
  exists b sk', secret_key_to_bytes r sk = Some b /\ length b = 32%nat /\ bytes b /\ secret_key_from_bytes r b = Some (Ok sk') /\ bval (r_cfg r) sk' = bval (r_cfg r) sk.
Proof.
  intros HR W L. exists (i2osp (bval (r_cfg r) sk) 32). pose proof (sk_to r HR sk W) as E. pose proof (i2osp_bytes (bval (r_cfg r) sk) 32) as Hb. pose proof (i2osp_length (bval (r_cfg r) sk) 32) as Hl.
  destruct (sk_from r HR _ Hb Hl) as [w [W1 [W2 W3]]]. change bls381_n with n in W3.
  assert (V0 : 0 <= bval (r_cfg r) sk) by (apply (wf_range (r_cfg r) (ff_ok r (fp_ok_facts r (bls_fp_ok r HR))) _ sk W)).
  assert (EV : os2ip (i2osp (bval (r_cfg r) sk) 32) = bval (r_cfg r) sk) by (rewrite os2ip_i2osp; apply Z.mod_small; split; [exact V0|]; eapply Z.lt_trans; [exact L|reflexivity]).
  exists w. rewrite EV in *. destruct (Z.ltb_spec (bval (r_cfg r) sk) n) as [_|Q]; [|lia]. auto 6.
Qed.
Print Assumptions C44_key_round_trip.

(** key_generate is the draft's KeyGen (HKDF over SHA-256), as 32 big-endian bytes, and the result is always a valid key.
    [key_room] only matters in debug builds, whose SHA-256 length counter overflows at half a gigabyte. *)
Theorem C44_key_generate r bd ikm info : In r bls_roms -> bytes ikm -> bytes info -> key_room bd (length ikm) (length info) ->
  exists b sk, key_generate r bd ikm info = Some b /\ b = i2osp (KeyGen n ikm info) 32 /\ secret_key_from_bytes r b = Some (Ok sk) /\ bval (r_cfg r) sk = KeyGen n ikm info.
Proof.
  intros HR H1 H2 R. rewrite (keygen r HR bd ikm info H1 H2 R). change bls381_n with n.
  set (k := KeyGen n ikm info). assert (K : 0 <= k < n) by (apply Z.mod_pos_bound; reflexivity).
  destruct (sk_from r HR _ (i2osp_bytes k 32) (i2osp_length k 32)) as [w [W1 [W2 W3]]]. change bls381_n with n in W3.
  assert (EV : os2ip (i2osp k 32) = k) by (rewrite os2ip_i2osp; apply Z.mod_small; split; [lia|]; eapply Z.lt_trans; [apply K|reflexivity]).
  rewrite EV in *. destruct (Z.ltb_spec k n); [|lia]. exists (i2osp k 32), w. auto 6.
Qed.
Print Assumptions C44_key_generate.
(** the zero key is accepted *)
Example C44_zero_key : exists sk, secret_key_from_bytes rom_bls381_64 (repeat 0 32) = Some (Ok sk) /\ bval (r_cfg rom_bls381_64) sk = 0.
Proof. eexists. split; vm_compute; reflexivity. Qed.
Example C44_boundary : secret_key_from_bytes rom_bls381_64 (i2osp n 32) = Some (Err InvalidSecretKeyRange) /\ (exists sk, secret_key_from_bytes rom_bls381_32 (i2osp (n - 1) 32) = Some (Ok sk)) /\ secret_key_from_bytes rom_bls381_64 (repeat 0 33) = Some (Err InvalidSecretKeySize).
Proof. split; [vm_compute; reflexivity|]. split; [eexists; vm_compute; reflexivity|vm_compute; reflexivity]. Qed.
Example C44_room : key_room Debug 32 0 /\ key_room Release 4000 5.
Proof. split; split; (left; reflexivity) || (right; vm_compute; reflexivity). Qed.

(** ** C45, G1 *)
(** The curve y^2 = x^3 + 4 over the field of p elements *)
Definition on_g1 (A : point) : Prop := on_w bls381_p 0 4 A.

Lemma on_g1_w r A : In r bls_roms -> on_g1 A <-> on_w (pmod r) (cA r) (cB r) A.
Proof. intros H. rewrite (bls_p r H). destruct (bls_AB r H) as [-> ->]. reflexivity. Qed.

(** Every point that [P] may represent is written in the two formats of Spec/BlsSpec.v (never a panic). *)
Theorem C45_g1_serialize r bd P A : In r bls_roms -> w_point r P A -> (forall x y, A = Aff x y -> x_writable r P x) ->
  serialize_g1 r bd P = Some (compress1 bls381_p 48 A) /\ serialize_uncompressed_g1 r P = Some (plain1 48 A).
Proof.
  intros HR HP HW. rewrite <- (bls_p r HR), <- (bls_N r HR).
  split; [apply serialize_ok|apply serialize_u_ok]; eauto using bls_w, bls_codec, bls_ns, bls_no2, bls_bits; rewrite (bls_N r HR); lia.
Qed.
Print Assumptions C45_g1_serialize.

(** Every encoding of a curve point is decoded to that point. *)
Theorem C45_g1_deserialize r A b : In r bls_roms -> on_g1 A -> b = compress1 bls381_p 48 A \/ b = plain1 48 A ->
  exists P, deserialize_g1 r b = Some (Ok P) /\ w_point r P A.
Proof.
  intros HR O Hb. rewrite (on_g1_w r A HR) in O. rewrite <- (bls_p r HR), <- (bls_N r HR) in Hb.
  apply decode_g1_ok; auto using bls_w, bls_codec, bls_ns, bls_no2, bls_bits. rewrite (bls_N r HR); lia.
Qed.
Print Assumptions C45_g1_deserialize.

(** Every other byte string is refused, with the error that its length and flags call for: never a panic, never a point. *)
Theorem C45_g1_reject r b : In r bls_roms -> bytes b -> (forall A, on_g1 A -> b <> compress1 bls381_p 48 A /\ b <> plain1 48 A) ->
  deserialize_g1 r b = Some (Err (g1_error 48 b)).
Proof.
  intros HR Hb NO. rewrite <- (bls_p r HR), <- (bls_N r HR) in NO. rewrite <- (bls_N r HR).
  apply decode_g1_err; auto using bls_w, bls_codec, bls_ns, bls_no2, bls_bits; [rewrite (bls_N r HR); lia|]. intros A O. apply NO. rewrite (on_g1_w r A HR). exact O.
Qed.
Print Assumptions C45_g1_reject.

(** Round trips.  A decoded point is written back as the bytes it came from, in both formats. *)
Lemma bls_zero_stored r : In r bls_roms -> zero_stored r.
Proof.
  assert (G : forall r, match fp_new_big r (repeat 0 (NLEN (r_cfg r))) with Some f => match fp_norm r f with Some g => bval (r_cfg r) (fx g) <? pmod r | None => true end | None => true end = true -> zero_stored r).
  { intros x H x0 x1 H0 H1. rewrite H0, H1 in H. apply Z.ltb_lt in H. exact H. }
  intros [<-|[<-|[]]]; apply G; vm_compute; reflexivity.
Qed.
Theorem C45_g1_bytes_round_trip r bd A b : In r bls_roms -> on_g1 A -> b = compress1 bls381_p 48 A \/ b = plain1 48 A ->
  exists P, deserialize_g1 r b = Some (Ok P) /\ serialize_g1 r bd P = Some (compress1 bls381_p 48 A) /\ serialize_uncompressed_g1 r P = Some (plain1 48 A).
Proof.
  intros HR O Hb. destruct (C45_g1_deserialize r A b HR O Hb) as [P [P1 P2]]. exists P. split; [exact P1|]. apply C45_g1_serialize; auto.
  intros x y ->. right. destruct (Z.eq_dec x 0) as [->|X0]; [left|right; exact X0].
  apply (decode_stored r (bls_w r HR) (bls_codec r HR) ltac:(rewrite (bls_N r HR); lia) (bls_bits r HR) b P y (bls_zero_stored r HR)); [|exact P1|exact P2].
  destruct Hb as [->| ->]; [apply i2osp_bytes|]. unfold plain1. apply Forall_app; split; apply i2osp_bytes.
Qed.
Print Assumptions C45_g1_bytes_round_trip.
(** A point survives being written and read *)
Theorem C45_g1_point_round_trip r bd P A : In r bls_roms -> w_point r P A -> (forall x y, A = Aff x y -> x_writable r P x) ->
  (exists b Q, serialize_g1 r bd P = Some b /\ length b = 48%nat /\ deserialize_g1 r b = Some (Ok Q) /\ w_point r Q A) /\
  (exists b Q, serialize_uncompressed_g1 r P = Some b /\ length b = 96%nat /\ deserialize_g1 r b = Some (Ok Q) /\ w_point r Q A).
Proof.
  intros HR HP HW. destruct (C45_g1_serialize r bd P A HR HP HW) as [E1 E2]. pose proof (proj1 HP) as O. rewrite <- (on_g1_w r A HR) in O.
  destruct (C45_g1_deserialize r A _ HR O (or_introl eq_refl)) as [Q [Q1 Q2]]. destruct (C45_g1_deserialize r A _ HR O (or_intror eq_refl)) as [Q' [Q3 Q4]]. split.
  - exists (compress1 bls381_p 48 A), Q. split; [exact E1|]. split; [|auto]. destruct A; apply i2osp_length.
  - exists (plain1 48 A), Q'. split; [exact E2|]. split; [|auto]. destruct A; unfold plain1; rewrite app_length, i2osp_length; [rewrite repeat_length|rewrite i2osp_length]; reflexivity.
Qed.
Print Assumptions C45_g1_point_round_trip.
(** the generator, decoded from the standard encoding *)
Definition g1x : Z := 0x17f1d3a73197d7942695638c4fa9ac0fc3688c4f9774b905a14e3a3f171bac586c55e83ff97a1aeffb3af00adb22c6bb.
Definition g1y : Z := 0x08b3f481e3aaa0f1a09e30ed741d8ae4fcf5e095d5d00af600db18cb2c04b3edd03cc744a2888ae40caa232946c5e7e1.
Example C45_generator : on_g1 (Aff g1x g1y) /\ compress1 bls381_p 48 (Aff g1x g1y) = i2osp 0x97f1d3a73197d7942695638c4fa9ac0fc3688c4f9774b905a14e3a3f171bac586c55e83ff97a1aeffb3af00adb22c6bb 48.
Proof. split; [|vm_compute; reflexivity]. split; [split; vm_compute; congruence|]. split; [split; vm_compute; congruence|]. vm_compute. reflexivity. Qed.
Example C45_rejects : deserialize_g1 rom_bls381_64 [] = Some (Err InvalidG1Size) /\ deserialize_g1 rom_bls381_64 (repeat 255 48) = Some (Err InvalidPoint) /\
  deserialize_g1 rom_bls381_64 (32 :: repeat 0 95) = Some (Err InvalidYFlag).
Proof. repeat split; vm_compute; reflexivity. Qed.
