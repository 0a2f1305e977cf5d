(** Decidable ROM conditions for the point arithmetic. *)
From Verif Require Import Base.Word Model.Big Model.Roms Model.Fp Model.Ecp Spec.BigSpec Spec.RomSpec Spec.FpSpec Spec.CurveSpec Spec.EcpSpec
  Proof.BigVal Proof.RomCheck Proof.FpBase Proof.FpExp Proof.FieldP Proof.EcpOps Proof.EcpW Proof.EcpE.

Definition fpowb (r : rom) : bool :=
  if negb (special r) then true else match fpow_exp r with Some e => e =? (if r_MOD8 r =? 5 then (pmod r - 5) / 8 else (pmod r - 3) / 4) | None => false end.
Lemma fpowb_ok r : fpowb r = true -> fpow_ok r.
Proof. unfold fpowb, fpow_ok. intros H Hs. rewrite Hs in H. cbn [negb] in H. destruct (fpow_exp r) as [e|]; [|discriminate]. apply Z.eqb_eq in H. congruence. Qed.
Definition multb (r : rom) (e k : Z) : bool :=
  (- 2 ^ BASEBITS (r_cfg r) <? k) && (k <? 2 ^ BASEBITS (r_cfg r)) && (special r || (negb (k =? 0) && (e * Z.abs k <? 2 ^ 31))).
Lemma multb_ok r e k : multb r e k = true -> mult_ok r e k.
Proof. unfold multb, mult_ok. rewrite !andb_true_iff, orb_true_iff, andb_true_iff, negb_true_iff, Z.eqb_neq, !Z.ltb_lt. tauto. Qed.
Definition baseb (r : rom) : bool := checkb r && fp_okb r && (MX r =? FEXCESS r) && fpowb r && big_wfb (r_cfg r) (r_CURVE_B r) && (cB r <? pmod r).
Lemma baseb_ok r : baseb r = true -> fp_ok r /\ MX r = FEXCESS r /\ fpow_ok r /\ big_wf (r_cfg r) (r_CURVE_B r) /\ cB r < pmod r.
Proof.
  unfold baseb. rewrite !andb_true_iff, Z.eqb_eq, Z.ltb_lt. intros [[[[[H1 H2] H3] H4] H5] H6].
  split; [split; [apply checkb_ok; exact H1|exact H2]|]. split; [exact H3|]. split; [apply fpowb_ok; exact H4|]. split; [apply big_wfb_ok; exact H5|exact H6].
Qed.
Definition congb (p a b : Z) : bool := a mod p =? b mod p.
Definition w_okb (r : rom) : bool :=
  baseb r && (match r_CURVETYPE r with Weierstrass => true | _ => false end) &&
  ((r_CURVE_A r =? 0) && multb r 18 (3 * r_CURVE_B_I r) && congb (pmod r) (r_CURVE_B_I r) (cB r) ||
   (r_CURVE_A r =? -3) && (8 <=? maxg r) && ((r_CURVE_B_I r =? 0) || multb r (FEXCESS r) (r_CURVE_B_I r) && congb (pmod r) (r_CURVE_B_I r) (cB r))).
Lemma w_okb_ok r : w_okb r = true -> w_ok r.
Proof.
  unfold w_okb, w_ok, congb, cong. rewrite !andb_true_iff, !orb_true_iff, !andb_true_iff, !orb_true_iff, !andb_true_iff, !Z.eqb_eq, Z.leb_le. intros [[H1 H2] H3]. apply baseb_ok in H1.
  assert (Hc : r_CURVETYPE r = Weierstrass) by (destruct (r_CURVETYPE r); reflexivity || discriminate).
  destruct H1 as [A1 [A2 [A3 [A4 A5]]]]. repeat (split; [assumption|]).
  destruct H3 as [[[B1 B2] B3]|[[B1 B2] B3]]; [left|right]; (split; [exact B1|]).
  - split; [apply multb_ok; exact B2|exact B3].
  - split; [exact B2|]. destruct B3 as [B3|[B3 B4]]; [left; exact B3|right; split; [apply multb_ok; exact B3|exact B4]].
Qed.
Definition e_okb (r : rom) : bool := baseb r && (match r_CURVETYPE r with Edwards => true | _ => false end) && ((r_CURVE_A r =? 1) || (r_CURVE_A r =? -1)).
Lemma e_okb_ok r : e_okb r = true -> e_ok r.
Proof.
  unfold e_okb, e_ok. rewrite !andb_true_iff, orb_true_iff, !Z.eqb_eq. intros [[H1 H2] H3]. apply baseb_ok in H1.
  assert (Hc : r_CURVETYPE r = Edwards) by (destruct (r_CURVETYPE r); reflexivity || discriminate).
  destruct H1 as [A1 [A2 [A3 [A4 A5]]]]. repeat (split; [assumption|]). exact H3.
Qed.
