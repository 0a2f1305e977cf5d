(** The conditions of the elliptic curve protocols hold for secp256k1. *)
From Verif Require Import Base.Word Base.Arr Model.Big Model.Roms Model.Fp Model.Ecp Spec.BigSpec Spec.RomSpec Spec.FpSpec Spec.CurveSpec Spec.EcpSpec
  Proof.NumTheory Proof.RomCheck Proof.FpBase Proof.FpCheck Proof.EcpCheck Proof.EcpCodec3 Proof.EcpProto Proof.Pocklington Proof.Primes Proof.CurveFacts Proof.OrderCert Proof.SlopesSecp Proof.EcDh.
From Coq Require Import Znumtheory.

Definition eqb_Z (x y : Z) (H : (x =? y) = true) : x = y := proj1 (Z.eqb_eq x y) H.
Definition wfb (c : cfg) (w : list Z) : bool := Nat.eqb (length w) (NLEN c) && forallb (fun x => (0 <=? x) && (x <? 2 ^ BASEBITS c)) w.
Lemma wfb_ok c w : wfb c w = true -> big_wf c w.
Proof.
  unfold wfb. rewrite andb_true_iff, Nat.eqb_eq, forallb_forall. intros [L H]. split; [exact L|]. apply Forall_forall. intros x Hx. specialize (H x Hx). apply andb_true_iff in H. rewrite Z.leb_le, Z.ltb_lt in H. exact H.
Qed.
Definition onb (p a b x y : Z) : bool := (0 <=? x) && (x <? p) && (0 <=? y) && (y <? p) && ((y * y) mod p =? (x * x * x + a * x + b) mod p).
Lemma onb_ok p a b x y : onb p a b x y = true -> on_w p a b (Aff x y).
Proof. unfold onb. rewrite !andb_true_iff, !Z.leb_le, !Z.ltb_lt, Z.eqb_eq. intros [[[[A B] C] D] E]. split; [split; assumption|]. split; [split; assumption|exact E]. Qed.
Definition gx (r : rom) : Z := bval (r_cfg r) (r_GX r).
Definition gy (r : rom) : Z := bval (r_cfg r) (r_GY r).
(** everything that is a computation on small data *)
Definition groupb (r : rom) (q n b : Z) : bool :=
  w_okb r && (cA r =? 0) && (cB r =? b) && (pmod r =? q) && (order r =? n) && (2 <? n) && sqrt_okb r && (pmod r <=? 256 ^ Z.of_nat (mbytes r)) && negb (special r) && wfb (r_cfg r) (r_GX r) && wfb (r_cfg r) (r_GY r) && wfb (r_cfg r) (r_ORDER r)
  && onb (pmod r) (cA r) (cB r) (gx r) (gy r) && (2 * order r + 4 <? 2 ^ (Z.of_nat (NLEN (r_cfg r)) * BASEBITS (r_cfg r) - 4)) && (order r <=? 256 ^ Z.of_nat (mbytes r)) && (order r + 256 ^ Z.of_nat (mbytes r) <=? bmax (r_cfg r)).
Theorem group_ok r q n b l md : (forall v, md v = v mod q) -> groupb r q n b = true -> prime q -> prime n -> no_order2 q 0 b -> ~ is_square q b -> order_check md 0 (gx r) (gy r) l n = true -> ec_group r.
Proof.
  intros Hmd. unfold groupb. rewrite !andb_true_iff, negb_true_iff, !Z.leb_le, !Z.ltb_lt, !Z.eqb_eq. intros H Hq Hn H2 Hs Ho.
  destruct H as [[[[[[[[[[[[[[[B1 B2] B3] B4] B5] B6] B7] B8] B9] C1] C2] C3] C4] C5] C6] C7].
  pose proof (w_okb_ok r B1) as Hw. assert (Wr : weierstrass r) by (split; [exact Hw|]; rewrite B2, B3, B4; auto). apply onb_ok in C4.
  constructor; try assumption.
  - split; [rewrite B4; exact Hq|]. split; [apply sqrt_okb_ok; [exact (proj1 Hw)|exact B7]|exact B8].
  - rewrite B4, B3. exact Hs.
  - split; apply wfb_ok; assumption.
  - apply wfb_ok; assumption.
  - rewrite B5. exact Hn.
  - lia.
  - rewrite B5. apply (order_ok r Wr (gx r) (gy r) md) with (l := l); [rewrite B4; exact Hmd|exact C4|]. rewrite B2. exact Ho.
  - auto.
Qed.
Lemma ns_secp256k1 : ~ is_square secp256k1_p 7.
Proof. apply ns_ok; [exact prime_secp256k1_p|]. vm_cast_no_check (eq_refl true). Qed.
Definition secp_gx : Z := 0x79be667ef9dcbbac55a06295ce870b07029bfcdb2dce28d959f2815b16f81798.
Definition secp_gy : Z := 0x483ada7726a3c4655da4fbfc0e1108a8fd17b448a68554199c47d08ffb10d4b8.
Definition secp_red : Z -> Z := red 256 0x1000003d1.
Lemma secp_red_ok v : secp_red v = v mod secp256k1_p.
Proof. apply red_ok; [lia|reflexivity|apply eqb_Z; vm_cast_no_check (eq_refl true)]. Qed.
Lemma order_secp : order_check secp_red 0 secp_gx secp_gy slopes_secp256k1 secp256k1_n = true.
Proof. vm_cast_no_check (eq_refl true). Qed.
Theorem secp256k1_64_group : ec_group rom_secp256k1_64.
Proof.
  assert (X : gx rom_secp256k1_64 = secp_gx) by (apply eqb_Z; vm_cast_no_check (eq_refl true)). assert (Y : gy rom_secp256k1_64 = secp_gy) by (apply eqb_Z; vm_cast_no_check (eq_refl true)).
  apply (group_ok _ secp256k1_p secp256k1_n 7 slopes_secp256k1 secp_red); [exact secp_red_ok|vm_cast_no_check (eq_refl true)|exact prime_secp256k1_p|exact prime_secp256k1_n|exact no2_secp256k1|exact ns_secp256k1|].
  rewrite X, Y. exact order_secp.
Qed.
Theorem secp256k1_32_group : ec_group rom_secp256k1_32.
Proof.
  assert (X : gx rom_secp256k1_32 = secp_gx) by (apply eqb_Z; vm_cast_no_check (eq_refl true)). assert (Y : gy rom_secp256k1_32 = secp_gy) by (apply eqb_Z; vm_cast_no_check (eq_refl true)).
  apply (group_ok _ secp256k1_p secp256k1_n 7 slopes_secp256k1 secp_red); [exact secp_red_ok|vm_cast_no_check (eq_refl true)|exact prime_secp256k1_p|exact prime_secp256k1_n|exact no2_secp256k1|exact ns_secp256k1|].
  rewrite X, Y. exact order_secp.
Qed.
Definition hasseb (r : rom) : bool := (0 <? hasse_k r) && (hasse_k r <? order r) && (2 ^ ((Z.log2 (pmod r) + 1 + 4) / 2) + pmod r <? bmax (r_cfg r)).
Lemma hasse_ok r : hasseb r = true -> 0 < hasse_k r < order r /\ 2 ^ ((Z.log2 (pmod r) + 1 + 4) / 2) + pmod r < bmax (r_cfg r).
Proof. unfold hasseb. rewrite !andb_true_iff, !Z.ltb_lt. tauto. Qed.
Lemma secp256k1_hasse : Forall (fun r => 0 < hasse_k r < order r /\ 2 ^ ((Z.log2 (pmod r) + 1 + 4) / 2) + pmod r < bmax (r_cfg r)) [rom_secp256k1_64; rom_secp256k1_32].
Proof. repeat (apply Forall_cons; [apply hasse_ok; vm_cast_no_check (eq_refl true)|]). apply Forall_nil. Qed.
