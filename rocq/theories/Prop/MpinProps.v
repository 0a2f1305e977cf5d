(** C50: M-Pin PIN extraction, restoration and share recombination.  C56: hashing to a curve point by trial increment (ECP::mapit). *)
From Verif Require Import Base.Word Base.Arr Model.Big Model.Roms Model.Fp Model.Ecp Model.Sha2 Model.Rand Model.Ecdh Model.Mpin
  Spec.Bytes Spec.BigSpec Spec.RomSpec Spec.FpSpec Spec.CurveSpec Spec.EcpSpec Spec.Sha2Spec Spec.KdfSpec Spec.MpinSpec
  Proof.FpBase Proof.FieldP Proof.Weier Proof.EcpBridge Proof.EcpMul Proof.EcpInst Proof.EcpCodec3 Proof.EcdhSym Proof.MapIt Proof.MpinProof Proof.MpinInst Proof.SlopesMpin Proof.BlsRoms Proof.EcGroupInst.
From Coq Require Import Lia Znumtheory.

Lemma app_inv_len {A} (a a' b b' : list A) : length a = length a' -> a ++ b = a' ++ b' -> a = a' /\ b = b'.
Proof. revert a'. induction a as [|x a IH]; intros [|x' a'] L E; cbn in *; try discriminate; [auto|]. injection E as -> E. injection L as L. destruct (IH a' L E) as [-> ->]. auto. Qed.
Section Facts.
Variable r : rom.
Hypothesis HM : mpin_rom r.
Let Hw := proj1 (proj1 HM).
Let Hp := proj1 (proj2 (proj1 HM)).
Let Hn := proj2 (proj2 (proj1 HM)).
Lemma mb_ok fuel h n Q : bytes h -> (mbytes r <= length h)%nat -> maps_to r h n Q -> (n < fuel)%nat -> exists P, ecp_mapit r fuel h = Some P /\ w_point_raw r 2 P Q.
Proof.
  intros Hb Hl HT Hf. pose proof HM as [_ [[_ [S5 _]] [SP [W [CW CS]]]]]. destruct (mapit_ok r Hw W Hp Hn S5 (or_introl SP) CW CS fuel h n Q Hb Hl HT Hf) as [P [E [O D]]]. exists P. split; [exact E|]. apply rden_raw; assumption.
Qed.
Lemma mb_conv fuel h P : bytes h -> (mbytes r <= length h)%nat -> os2ip (firstn (mbytes r) h) mod pmod r + Z.of_nat fuel <= pmod r -> ecp_mapit r fuel h = Some P -> exists n Q, (n < fuel)%nat /\ maps_to r h n Q /\ w_point_raw r 2 P Q.
Proof.
  intros Hb Hl HL E. pose proof HM as [_ [[_ [S5 _]] [SP [W [CW CS]]]]]. destruct (mapit_conv r Hw W Hp Hn S5 (or_introl SP) CW CS fuel h P Hb Hl HL E) as [n [Q [Hnf [HT D]]]]. exists n, Q. split; [exact Hnf|]. split; [exact HT|]. apply rden_raw; [assumption|assumption| |exact D].
  exact (mapped_on r HM h n Q Hb Hl HT).
Qed.
End Facts.

(** ** C56: mapit returns the cofactor multiple of the first usable point, and nothing else *)
Theorem C56_mapit : forall r fuel h n Q, mpin_rom r -> bytes h -> (mbytes r <= length h)%nat -> maps_to r h n Q -> (n < fuel)%nat ->
  exists P, ecp_mapit r fuel h = Some P /\ w_point_raw r 2 P Q.
Proof. intros r fuel h n Q HM. exact (mb_ok r HM fuel h n Q). Qed.
Print Assumptions C56_mapit.
Theorem C56_mapit_only : forall r fuel h P, mpin_rom r -> bytes h -> (mbytes r <= length h)%nat -> os2ip (firstn (mbytes r) h) mod pmod r + Z.of_nat fuel <= pmod r -> ecp_mapit r fuel h = Some P ->
  exists n Q, (n < fuel)%nat /\ maps_to r h n Q /\ w_point_raw r 2 P Q.
Proof. intros r fuel h P HM. exact (mb_conv r HM fuel h P). Qed.
Print Assumptions C56_mapit_only.
(** the image is a function of the digest: there is at most one *)
Theorem C56_mapit_unique : forall r h n Q n' Q', mpin_rom r -> maps_to r h n Q -> maps_to r h n' Q' -> n = n' /\ Q = Q'.
Proof.
  intros r h n Q n' Q' HM [L [C1 [N1 B1]]] [L' [C2 [N2 B2]]].
  assert (E : n = n'). { destruct (Nat.lt_trichotomy n n') as [X|[X|X]]; [exfalso; apply N1; exact (B2 n X Q C1)|exact X|exfalso; apply N2; exact (B1 n' X Q' C2)]. } subst n'. split; [reflexivity|].
  destruct HM as [[Hw [Hp Hn]] [_ [_ [W [CW CS]]]]]. destruct C1 as [y [O [Ey T]]]. assert (C1 : candidate r (os2ip (firstn (mbytes r) h) mod pmod r + Z.of_nat n) Q) by (exists y; auto).
  apply (cand_iff r Hw Hp Hn CW _ _ _ O Ey) in C1. apply (cand_iff r Hw Hp Hn CW _ _ _ O Ey) in C2. congruence.
Qed.
Print Assumptions C56_mapit_unique.
Theorem C56_roms : forall r, In r (bls_roms ++ bn254_roms) -> mpin_rom r.
Proof. intros r H. apply in_app_or in H. destruct H as [H|H]; [exact (bls_mpin r H)|exact (bn_mpin r H)]. Qed.
Print Assumptions C56_roms.
(** a concrete digest: its own residue is no abscissa of a point, the next integer is *)
Example C56_ex : forall r, In r bn254_roms -> exists P, ecp_mapit r 2 (id_string SHA256 (mbytes r) mp_id) = Some P /\ w_point_raw r 2 P (Aff mp_x mp_y).
Proof.
  intros r H. pose proof (id_string_bytes r 32 SHA256 mp_id (or_introl eq_refl)) as [B L]. apply (C56_mapit r 2 _ 1); [exact (bn_mpin r H)|exact B|lia|exact (mp_maps r H)|lia].
Qed.

(** ** C50 *)
(** extracting a factor f turns the token T into S with S + (f mod 2^facbits) H = T, where H is the point the identity is hashed to *)
Theorem C50_extract : forall r bd fuel sha P cid n H f bits F xs ys xt yt, mpin_rom r ->
  In (sha, P) sha_types -> bytes cid -> room P bd (length cid) -> maps_to r (id_string P (mbytes r) cid) n H -> (n < fuel)%nat ->
  0 <= bits <= 32 -> w_times (pmod r) (cA r) H (Z.to_nat (f mod 2 ^ bits)) F ->
  on_w (pmod r) (cA r) (cB r) (Aff xs ys) -> on_w (pmod r) (cA r) (cB r) (Aff xt yt) -> w_sum (pmod r) (cA r) (Aff xs ys) F (Aff xt yt) -> xs <> 0 ->
  extract_factor r bd fuel sha cid f bits (enc_xy r xt yt) = Some (0, enc_xy r xs ys).
Proof. intros r bd fuel sha P cid n H f bits F xs ys xt yt HM HT Hb HR M Hn Hbits TF OS OT S Nx. exact (shift_ok r HM false bd fuel sha P cid n H f bits F xs ys xt yt HT Hb HR M Hn (proj1 Hbits) TF S OS OT Nx). Qed.
Print Assumptions C50_extract.
Theorem C50_restore : forall r bd fuel sha P cid n H f bits F xs ys xt yt, mpin_rom r ->
  In (sha, P) sha_types -> bytes cid -> room P bd (length cid) -> maps_to r (id_string P (mbytes r) cid) n H -> (n < fuel)%nat ->
  0 <= bits <= 32 -> w_times (pmod r) (cA r) H (Z.to_nat (f mod 2 ^ bits)) F ->
  on_w (pmod r) (cA r) (cB r) (Aff xs ys) -> on_w (pmod r) (cA r) (cB r) (Aff xt yt) -> w_sum (pmod r) (cA r) (Aff xs ys) F (Aff xt yt) -> xt <> 0 ->
  restore_factor r bd fuel sha cid f bits (enc_xy r xs ys) = Some (0, enc_xy r xt yt).
Proof. intros r bd fuel sha P cid n H f bits F xs ys xt yt HM HT Hb HR M Hn Hbits TF OS OT S Nx. exact (shift_ok r HM true bd fuel sha P cid n H f bits F xs ys xt yt HT Hb HR M Hn (proj1 Hbits) TF S OS OT Nx). Qed.
Print Assumptions C50_restore.
(** the right factor restores the token, byte for byte, unless the extracted point is infinity or has abscissa 0 *)
Theorem C50_roundtrip : forall r bd fuel sha P cid n H f bits F xt yt, mpin_rom r ->
  In (sha, P) sha_types -> bytes cid -> room P bd (length cid) -> maps_to r (id_string P (mbytes r) cid) n H -> (n < fuel)%nat ->
  0 <= bits <= 32 -> w_times (pmod r) (cA r) H (Z.to_nat (f mod 2 ^ bits)) F -> on_w (pmod r) (cA r) (cB r) (Aff xt yt) -> xt <> 0 -> F <> Aff xt yt ->
  (forall y, ~ w_sum (pmod r) (cA r) (Aff 0 y) F (Aff xt yt)) ->
  exists token, extract_factor r bd fuel sha cid f bits (enc_xy r xt yt) = Some (0, token) /\ restore_factor r bd fuel sha cid f bits token = Some (0, enc_xy r xt yt).
Proof.
  intros r bd fuel sha P cid n H f bits F xt yt HM HT Hb HR M Hn Hbits TF OT Nx NF N0. destruct (id_string_bytes r sha P cid HT) as [B1 B2].
  pose proof (mapped_on r HM _ n H B1 ltac:(lia) M) as OH. destruct (times_on r HM H _ F OH TF) as [OF _]. destruct (sub_ex r HM (Aff xt yt) F OT OF) as [[|xs ys] [OS S]].
  - exfalso. apply NF. inversion S; subst; reflexivity.
  - exists (enc_xy r xs ys). split; [eapply C50_extract; try eassumption|eapply C50_restore; eassumption]. intros ->. exact (N0 ys S).
Qed.
Print Assumptions C50_roundtrip.
(** a different factor gives a different token, as long as the identity point has no small order *)
Theorem C50_wrong_factor : forall r bd fuel sha P cid n H f f' bits F F' xs ys xt yt xu yu, mpin_rom r ->
  In (sha, P) sha_types -> bytes cid -> room P bd (length cid) -> maps_to r (id_string P (mbytes r) cid) n H -> (n < fuel)%nat ->
  0 <= bits <= 32 -> w_times (pmod r) (cA r) H (Z.to_nat (f mod 2 ^ bits)) F -> w_times (pmod r) (cA r) H (Z.to_nat (f' mod 2 ^ bits)) F' ->
  on_w (pmod r) (cA r) (cB r) (Aff xs ys) -> on_w (pmod r) (cA r) (cB r) (Aff xt yt) -> on_w (pmod r) (cA r) (cB r) (Aff xu yu) ->
  w_sum (pmod r) (cA r) (Aff xs ys) F (Aff xt yt) -> w_sum (pmod r) (cA r) (Aff xs ys) F' (Aff xu yu) -> xu <> 0 ->
  f mod 2 ^ bits <> f' mod 2 ^ bits -> (forall k, (0 < k)%nat -> Z.of_nat k < 2 ^ bits -> ~ w_times (pmod r) (cA r) H k Inf) ->
  exists token, restore_factor r bd fuel sha cid f' bits (enc_xy r xs ys) = Some (0, token) /\ token <> enc_xy r xt yt.
Proof.
  intros r bd fuel sha P cid n H f f' bits F F' xs ys xt yt xu yu HM HT Hb HR M Hn Hbits TF TF' OS OT OU S S' Nx Nf Ord. exists (enc_xy r xu yu). split; [eapply C50_restore; eassumption|].
  destruct (id_string_bytes r sha P cid HT) as [B1 B2]. pose proof (mapped_on r HM _ n H B1 ltac:(lia) M) as OH. destruct (times_on r HM H _ F OH TF) as [OF EF]. destruct (times_on r HM H _ F' OH TF') as [OF' EF'].
  pose proof HM as [[Hw [Hp Hn2]] [[_ [_ Hm]] _]]. pose proof (w_group r Hw Hp Hn2) as WG.
  intros E. assert (EU : Aff xu yu = Aff xt yt).
  { unfold enc_xy in E. injection E as E. destruct (app_inv_len _ _ _ _ ltac:(rewrite !i2osp_length; reflexivity) E) as [E1 E2]. destruct OT as [RX [RY _]], OU as [RX' [RY' _]]. unfold residue in *.
    assert (D : forall a b, 0 <= a < pmod r -> 0 <= b < pmod r -> i2osp a (mbytes r) = i2osp b (mbytes r) -> a = b). { intros a b Ha Hb' X. apply (f_equal os2ip) in X. rewrite !os2ip_i2osp, !Z.mod_small in X by lia. exact X. }
    rewrite (D xu xt), (D yu yt) by assumption. reflexivity. }
  pose proof (summ r HM _ _ _ OS OF S) as Q. pose proof (summ r HM _ _ _ OS OF' S') as Q'. rewrite EU in Q'. rewrite <- Q' in Q.
  assert (EQ : ak (pmod r) F = ak (pmod r) F').
  { apply (cancel_r _ _ _ _ _ WG) with (c := ak (pmod r) (Aff xs ys)); try (apply on_ak; assumption). rewrite (cg_comm _ _ _ _ _ WG) by (apply on_ak; assumption). rewrite Q. apply (cg_comm _ _ _ _ _ WG); apply on_ak; assumption. }
  rewrite EF, EF' in EQ. assert (OA := on_ak (pmod r) Hp (cA r) (cB r) H OH). pose proof (Z.mod_pos_bound f (2 ^ bits) ltac:(apply pow2_pos; lia)) as R1. pose proof (Z.mod_pos_bound f' (2 ^ bits) ltac:(apply pow2_pos; lia)) as R2.
  rewrite <- !ztimes_nat in EQ by lia. set (u := f mod 2 ^ bits) in *. set (v := f' mod 2 ^ bits) in *.
  assert (G : forall x y, 0 <= x < 2 ^ bits -> 0 <= y < 2 ^ bits -> x < y -> ztimes (apt (pmod r)) (AInf (pmod r)) (asum (pmod r) (mk (pmod r) (cA r))) (aneg (pmod r)) x (ak (pmod r) H) = ztimes (apt (pmod r)) (AInf (pmod r)) (asum (pmod r) (mk (pmod r) (cA r))) (aneg (pmod r)) y (ak (pmod r) H) -> False).
  { intros x y Rx Ry Lxy X. apply (Ord (Z.to_nat (y - x))); [lia|lia|]. apply (w_times_iff r Hw Hp Hn2); [exact OH|]. rewrite <- ztimes_nat by lia. replace (y - x) with (y + - x) by ring. rewrite (ztimes_add _ _ _ _ _ WG) by exact OA. rewrite (ztimes_opp _ _ _ _ _ WG) by exact OA. rewrite <- X.
    rewrite (cg_inv _ _ _ _ _ WG); [reflexivity|]. apply (ztimes_on _ _ _ _ _ WG). exact OA. }
  destruct (Z.lt_trichotomy u v) as [X|[X|X]]; [exact (G u v R1 R2 X EQ)|exact (Nf X)|exact (G v u R2 R1 X (eq_sym EQ))].
Qed.
Print Assumptions C50_wrong_factor.
(** extract_pin takes the PIN modulo 10000 when it is not negative; negative PINs are read modulo 2^14 after the (truncated) remainder *)
Theorem C50_pin : forall r bd fuel sha cid pin token, 0 <= pin -> extract_pin r bd fuel sha cid pin token = extract_factor r bd fuel sha cid (pin mod 10000) 14 token.
Proof. intros r bd fuel sha cid pin token H. unfold extract_pin, MAXPIN, PBLEN. rewrite Z.rem_mod_nonneg by lia. reflexivity. Qed.
Print Assumptions C50_pin.
Theorem C50_pin_negative : forall r bd fuel sha cid pin token, mpin_rom r -> pin < 0 -> pin mod 10000 <> 0 ->
  extract_pin r bd fuel sha cid pin token = extract_factor r bd fuel sha cid (16384 - (- pin) mod 10000) 14 token.
Proof.
  intros r bd fuel sha cid pin token HM H N. unfold extract_pin, MAXPIN, PBLEN. pose proof HM as [[Hw _] _]. replace pin with (- - pin) at 1 by ring. rewrite Z.rem_opp_l by lia. rewrite Z.rem_mod_nonneg by lia.
  pose proof (Z.mod_pos_bound (- pin) 10000 ltac:(lia)) as B. assert ((- pin) mod 10000 <> 0) by (intros E; apply N; rewrite <- (Z.opp_involutive pin); apply Z.mod_opp_l_z; [lia|exact E]).
  set (k := (- pin) mod 10000) in *. unfold extract_factor, shift_factor. destruct (ecp_frombytes r token) as [X|]; cbn [bind]; [|reflexivity]. destruct (ecp_is_infinity r X) as [i|]; cbn [bind]; [|reflexivity]. destruct i; [reflexivity|].
  destruct (mpin_hashit r bd sha 0 cid _) as [h|]; cbn [bind]; [|reflexivity]. destruct (ecp_mapit r fuel (snd h)) as [R|]; cbn [bind]; [|reflexivity].
  rewrite (pinmul_mod r HM R (- k)), (pinmul_mod r HM R (16384 - k)). change (2 ^ Z.of_nat (Z.to_nat 14)) with 16384. replace ((16384 - k) mod 16384) with ((- k) mod 16384); [reflexivity|].
  replace (16384 - k) with (- k + 1 * 16384) by ring. rewrite Z.mod_add by lia. reflexivity.
Qed.
Print Assumptions C50_pin_negative.
(** strings that encode no finite curve point are refused and left unchanged *)
Theorem C50_invalid_token : forall r bd fuel add sha cid f bits t, mpin_rom r -> bytes t -> (2 * mbytes r + 1 <= length t)%nat ->
  (forall x y, on_w (pmod r) (cA r) (cB r) (Aff x y) -> firstn (2 * mbytes r + 1) t <> enc_xy r x y /\ firstn (mbytes r + 1) t <> enc_x r x y) ->
  shift_factor r bd fuel add sha cid f bits t = Some (-14, t).
Proof. intros r bd fuel add sha cid f bits t HM Hb Hl Hbad. destruct (bad_inf r HM t Hb Hl Hbad) as [P [E1 E2]]. unfold shift_factor. rewrite E1. cbn [bind]. rewrite E2. reflexivity. Qed.
Print Assumptions C50_invalid_token.
(** recombining two shares adds the points *)
Theorem C50_recombine : forall r x1 y1 x2 y2 xs ys out, mpin_rom r -> on_w (pmod r) (cA r) (cB r) (Aff x1 y1) -> on_w (pmod r) (cA r) (cB r) (Aff x2 y2) ->
  w_sum (pmod r) (cA r) (Aff x1 y1) (Aff x2 y2) (Aff xs ys) -> xs <> 0 -> (2 * mbytes r + 1 <= length out)%nat ->
  recombine_g1 r (enc_xy r x1 y1) (enc_xy r x2 y2) out = Some (0, enc_xy r xs ys ++ skipn (2 * mbytes r + 1) out).
Proof. intros r x1 y1 x2 y2 xs ys out HM. exact (recombine_ok r HM x1 y1 x2 y2 xs ys out). Qed.
Print Assumptions C50_recombine.
Theorem C50_recombine_invalid : forall r x1 y1 t out, mpin_rom r -> on_w (pmod r) (cA r) (cB r) (Aff x1 y1) -> bytes t -> (2 * mbytes r + 1 <= length t)%nat ->
  (forall x y, on_w (pmod r) (cA r) (cB r) (Aff x y) -> firstn (2 * mbytes r + 1) t <> enc_xy r x y /\ firstn (mbytes r + 1) t <> enc_x r x y) ->
  recombine_g1 r (enc_xy r x1 y1) t out = Some (-14, out) /\ recombine_g1 r t (enc_xy r x1 y1) out = Some (-14, out).
Proof.
  intros r x1 y1 t out HM O Hb Hl Hbad. destruct (bad_inf r HM t Hb Hl Hbad) as [P [E1 E2]]. destruct (dec_r r HM x1 y1 O) as [Q [F1 F2]]. destruct HM as [[Hw [Hp _]] _]. destruct (EcpRaw.r_is_inf r Hw Hp Q _ F2) as [i [I1 I2]].
  assert (i = false) by (destruct i; [pose proof (proj1 I2 eq_refl) as Z; discriminate Z|reflexivity]). subst i.
  unfold recombine_g1. rewrite E1, F1. cbn [bind]. rewrite E2, I1. cbn [bind]. split; reflexivity.
Qed.
Print Assumptions C50_recombine_invalid.
(** with a hash type other than 32, 48 or 64 the identity is ignored: every client's token is shifted by the same point *)
Theorem C50_unknown_hash : forall r bd fuel add sha cid cid' f bits t, ~ In sha [32; 48; 64]%nat -> shift_factor r bd fuel add sha cid f bits t = shift_factor r bd fuel add sha cid' f bits t.
Proof.
  intros r bd fuel add sha cid cid' f bits t N. assert (E : hash_for sha = None) by (unfold hash_for; do 65 (destruct sha as [|sha]; [try reflexivity; exfalso; apply N; cbn [In]; tauto|]); reflexivity).
  unfold shift_factor, mpin_hashit. rewrite E. reflexivity.
Qed.
Print Assumptions C50_unknown_hash.
(** the identity mp_id, the token G and the factor 1234 on bn254 *)
Example C50_ex : forall r bd, In r bn254_roms -> room SHA256 bd 4 ->
  extract_factor r bd 5 32 mp_id 1234 14 (enc_xy r bn_gx 1) = Some (0, enc_xy r mp_sx mp_sy) /\ restore_factor r bd 5 32 mp_id 1234 14 (enc_xy r mp_sx mp_sy) = Some (0, enc_xy r bn_gx 1)
  /\ extract_pin r bd 5 32 mp_id 71234 (enc_xy r bn_gx 1) = Some (0, enc_xy r mp_sx mp_sy).
Proof.
  intros r bd HR RM. pose proof (bn_mpin r HR) as HM. assert (B : bytes mp_id) by (unfold bytes, mp_id; repeat constructor; unfold is_byte; lia).
  assert (E : extract_factor r bd 5 32 mp_id 1234 14 (enc_xy r bn_gx 1) = Some (0, enc_xy r mp_sx mp_sy)).
  { apply (C50_extract r bd 5 32 SHA256 mp_id 1 (Aff mp_x mp_y) 1234 14 (Aff mp_fx mp_fy)); [exact HM|left; reflexivity|exact B|exact RM|exact (mp_maps r HR)|lia|lia|change (Z.to_nat (1234 mod 2 ^ 14)) with 1234%nat; exact (mp_times r HR)
    |exact (on_bn r HR _ _ mp_on_s)|exact (on_bn r HR _ _ bn_g_on)|exact (mp_sum r HR)|discriminate]. }
  split; [exact E|]. split.
  - apply (C50_restore r bd 5 32 SHA256 mp_id 1 (Aff mp_x mp_y) 1234 14 (Aff mp_fx mp_fy)); [exact HM|left; reflexivity|exact B|exact RM|exact (mp_maps r HR)|lia|lia|change (Z.to_nat (1234 mod 2 ^ 14)) with 1234%nat; exact (mp_times r HR)
    |exact (on_bn r HR _ _ mp_on_s)|exact (on_bn r HR _ _ bn_g_on)|exact (mp_sum r HR)|discriminate].
  - rewrite C50_pin by lia. exact E.
Qed.
