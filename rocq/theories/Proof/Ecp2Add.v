(** ECP2 addition and doubling: the FP2 code computes the complete formulas. *)
From Verif Require Import Base.Word Base.Arr Model.Big Model.Roms Model.Fp Model.Fp2 Model.Fp12 Model.Ecp Model.Ecp2
  Spec.BigSpec Spec.RomSpec Spec.FpSpec Spec.EcpSpec Spec.TowerSpec Spec.TowerRep Spec.G2Spec Spec.Ecp2Spec
  Proof.NumTheory Proof.BigVal Proof.BigShift Proof.FpBase Proof.FpOps Proof.FpIv Proof.TowerRing Proof.TowerInv Proof.Fp2Ops Proof.EcpOps Proof.Ecp2Ops.
From Coq Require Import Lia Znumtheory.

Ltac rnorm Q := lazymatch type of Q with rep2 ?r ?lo ?hi ?e ?f ?u =>
  let lo' := zlit lo in let hi' := zlit hi in let e' := zlit e in change (rep2 r lo' hi' e' f u) in Q end.
Section A2.
Variable r : rom.
Hypothesis Hf : fp_ok r.
Hypothesis Hs : special r = false.
Hypothesis HT : tower_ok r.
Notation c := (r_cfg r).
Notation p := (pmod r).
Notation FE := (FEXCESS r).
Variable tw : twist.
Variable bt : Z2.
Variable bi : Z.
Hypothesis Hbi : 0 < 3 * bi <= 60.
Hypothesis Hbc : bi mod p = cB r mod p.
Hypothesis Hbt : match tw with MType => eq2 p bt (mul2 xi (k2 (cB r))) | DType => eq2 p (mul2 xi bt) (k2 (cB r)) end.
Let Hp0 : 0 < p := p_pos r Hf.
Let Hmg : 4 <= maxg r := maxg_ge r Hf.
Let HFE : 16383 <= FE. Proof. exact (proj1 (proj2 HT)). Qed.
Let HM : MX r = FEXCESS r. Proof. unfold MX. unfold special in Hs. destruct (r_MODTYPE r); try reflexivity; discriminate. Qed.
Let pn : p <> 0. Proof. lia. Qed.
Notation "x == y" := (eq2 p x y) (at level 70).
(** the factor the code carries for a D-type twist *)
Definition sx : Z2 := match tw with DType => xi | MType => one2 end.

Lemma iimul_e e a u k : 2 <= e -> 0 < k <= 60 -> e * 60 < 2 ^ 31 -> frep r 0 1 e a u -> exists f, fp_imul r a k = Some f /\ frep r 0 1 (e * 60) f (u * k).
Proof.
  intros He Hk Hov HA. pose proof (frep_e _ _ _ _ _ _ HA) as [He1 He2].
  pose proof (cf_B _ (cfg_ok_facts _ (ff_ok r (fp_ok_facts r Hf)))) as HB.
  assert (KX : k < 2 ^ BASEBITS c) by (assert (2 ^ 16 <= 2 ^ BASEBITS c) by (apply pow2_le; lia); change (2 ^ 16) with 65536 in *; lia).
  assert (EK : e * k <= e * 60) by (apply Z.mul_le_mono_nonneg_l; lia).
  assert (MO : mult_ok r e k) by (split; [lia|right; rewrite Z.abs_eq by lia; lia]).
  destruct (iimul r Hf e a u k MO HA) as [f [E1 E2]]. exists f. split; [exact E1|].
  assert (FX : fxes f <= e * 60).
  { unfold fp_imul in E1. rewrite Hs in E1. replace (k <? 0) with false in E1 by (symmetry; apply Z.ltb_ge; lia). cbn [bind] in E1.
    assert (FK : fxes a * k <= e * k) by (apply Z.mul_le_mono_nonneg_r; lia). assert (FK0 : 0 < fxes a * k) by (apply Z.mul_pos_pos; lia).
    rewrite (wrap_id 32) in E1 by (change (2 ^ (32 - 1)) with (2 ^ 31); lia). rewrite chk_ok in E1 by (change (2 ^ (32 - 1)) with (2 ^ 31); lia). cbn [bind] in E1.
    destruct (fxes a * k <=? FE).
    - destruct (pmul c (fx a) k) as [t|]; [|discriminate E1]. cbn [bind] in E1. injection E1 as <-. cbn [fxes]. lia.
    - destruct (inewint r Hf k ltac:(lia)) as [n [N1 N2]]. rewrite N1 in E1. cbn [bind] in E1. destruct (imulf r Hf e 2 a n u k HM HA N2) as [g [G1 G2]]. destruct (fp_mul r a n) as [g'|]; [|discriminate E1]. injection G1 as ->. cbn [bind] in E1. injection E1 as ->. apply frep_e in G2. lia. }
  destruct E2 as [A [B D]]. split; [exact A|]. split; [lia|exact D].
Qed.
Lemma imul2_ok e x u k : 2 <= e -> 0 < k <= 60 -> e * 60 < 2 ^ 31 -> rep2 r 0 1 e x u -> exists z, fp2_imul r x k = Some z /\ rep2 r 0 1 (e * 60) z (scale2 k u).
Proof.
  intros H1 H2 H3 [A B]. unfold fp2_imul. destruct (iimul_e e _ _ k H1 H2 H3 A) as [f [F1 F2]]. destruct (iimul_e e _ _ k H1 H2 H3 B) as [g [G1 G2]]. rewrite F1, G1. cbn [bind]. eexists. split; [reflexivity|].
  split; cbn [f2a f2b]; unfold scale2; cbn [fst snd]; [rewrite (Z.mul_comm k (fst u))|rewrite (Z.mul_comm k (snd u))]; assumption.
Qed.
Lemma mipn_ok e x u : rep2 r 0 1 e x u -> exists z, mul_ip_n r x = Some z /\ rep2 r 0 1 (5 * e) z (mul2 xi u).
Proof.
  intros H. unfold mul_ip_n. destruct (mul_ip2_ok r Hf e x u H) as [y [E1 E2]]. rewrite E1. cbn [bind]. apply (norm2_ok r Hf 1 2 (5 * e) y _) in E2; try lia. exact E2.
Qed.
Lemma ifdn_ok e x u : rep2 r 0 1 e x u -> exists z, ifd tw (mul_ip_n r) x = Some z /\ rep2 r 0 1 (5 * e) z (mul2 sx u).
Proof.
  intros H. unfold ifd, sx. destruct tw; [apply mipn_ok; exact H|]. exists x. split; [reflexivity|]. replace (mul2 one2 u) with u by ring. assert (1 <= e) by (destruct H as [A _]; apply frep_e in A; lia). eapply (rep2_mono r Hf); [| | |exact H]; lia.
Qed.
Lemma ifd_ok e x u : rep2 r 0 1 e x u -> exists z, ifd tw (fp2_mul_ip r) x = Some z /\ rep2 r 1 2 (5 * e) z (mul2 sx u).
Proof.
  intros H. unfold ifd, sx. destruct tw; [apply (mul_ip2_ok r Hf); exact H|]. exists x. split; [reflexivity|]. replace (mul2 one2 u) with u by ring. assert (1 <= e) by (destruct H as [A _]; apply frep_e in A; lia). eapply (rep2_mono r Hf); [| | |exact H]; lia.
Qed.
Lemma cst_ok e x u : 2 <= e -> e * 60 < 2 ^ 31 -> rep2 r 0 1 e x u ->
  exists z, (t <- fp2_imul r x (3 * bi) ;; ifm tw (mul_ip_n r) t) = Some z /\ rep2 r 0 1 (e * 60 * 5) z (mul2 (mul2 sx (scale2 3 bt)) u).
Proof.
  intros He H2 H. destruct (imul2_ok e x u (3 * bi) He Hbi H2 H) as [t [T1 T2]]. rewrite T1. cbn [bind].
  assert (Kb : k2 bi == k2 (cB r)) by (split; cbn [k2 fst snd]; [exact Hbc|reflexivity]).
  assert (E1 : scale2 (3 * bi) u = mul2 (k2 bi) (scale2 3 u)) by (destruct u; unfold scale2, mul2, k2; cbn [fst snd]; f_equal; ring).
  assert (E3 : forall v, mul2 (scale2 3 v) u = mul2 v (scale2 3 u)) by (intros [v0 v1]; destruct u; unfold scale2, mul2; cbn [fst snd]; f_equal; ring).
  unfold ifm, sx. destruct tw.
  - exists t. split; [reflexivity|]. eapply rep2_cong; [|eapply (rep2_mono r Hf); [| | |exact T2]; lia]. rewrite E1.
    replace (mul2 (mul2 xi (scale2 3 bt)) u) with (mul2 (mul2 xi bt) (scale2 3 u)). 2:{ destruct u, bt; unfold scale2, mul2, xi; cbn [fst snd]; f_equal; ring. }
    apply eq2_mul; [exact pn| |apply eq2_refl]. eapply eq2_trans; [exact Kb|apply eq2_sym; exact Hbt].
  - destruct (mipn_ok _ t _ T2) as [w [W1 W2]]. exists w. split; [exact W1|]. eapply rep2_cong; [|eapply (rep2_mono r Hf); [| | |exact W2]; lia]. rewrite E1.
    replace (mul2 (mul2 one2 (scale2 3 bt)) u) with (mul2 bt (scale2 3 u)). 2:{ destruct u, bt; unfold scale2, mul2, one2; cbn [fst snd]; f_equal; ring. }
    replace (mul2 xi (mul2 (k2 bi) (scale2 3 u))) with (mul2 (mul2 xi (k2 bi)) (scale2 3 u)) by ring. apply eq2_mul; [exact pn| |apply eq2_refl]. eapply eq2_trans; [|apply eq2_sym; exact Hbt]. apply eq2_mul; [exact pn|apply eq2_refl|exact Kb].
Qed.
Ltac gside := first [assumption | lia].
Ltac g1 lem a := lazymatch goal with HA : rep2 r ?lo ?hi ?e a ?u |- _ => let f := fresh "f" in let E := fresh "E" in let Q := fresh "Q" in
  destruct (lem lo hi e a u) as [f [E Q]]; [gside ..|]; rewrite E; cbn [bind]; clear E; rnorm Q end.
Ltac g1u lem a := lazymatch goal with HA : rep2 r 0 1 ?e a ?u |- _ => let f := fresh "f" in let E := fresh "E" in let Q := fresh "Q" in
  destruct (lem e a u HA) as [f [E Q]]; rewrite E; cbn [bind]; clear E; rnorm Q end.
Ltac g2 lem a b := lazymatch goal with HA : rep2 r ?lo ?hi ?e a ?u |- _ => lazymatch goal with HB : rep2 r ?lo2 ?hi2 ?e2 b ?v |- _ => let f := fresh "f" in let E := fresh "E" in let Q := fresh "Q" in
  destruct (lem lo hi e lo2 hi2 e2 a b u v) as [f [E Q]]; [gside ..|]; rewrite E; cbn [bind]; clear E; rnorm Q end end.
Ltac gstep := lazymatch goal with
  | |- Logic.ex (fun z => bind (fp2_add _ ?a ?b) _ = Some z /\ _) => g2 (add2_ok r Hf) a b
  | |- Logic.ex (fun z => bind (fp2_sub _ ?a ?b) _ = Some z /\ _) => g2 (sub2_ok r Hf) a b
  | |- Logic.ex (fun z => bind (fp2_rsub _ ?a ?b) _ = Some z /\ _) => g2 (rsub2_ok r Hf) a b
  | |- Logic.ex (fun z => bind (fp2_norm _ ?a) _ = Some z /\ _) => g1 (norm2_ok r Hf) a
  | |- Logic.ex (fun z => bind (fp2_dbl _ ?a) _ = Some z /\ _) => g1 (dbl2_ok r Hf) a
  | |- Logic.ex (fun z => bind (fp2_sqr _ ?a) _ = Some z /\ _) => g1u (sqr2_ok r Hf Hs) a
  | |- Logic.ex (fun z => bind (ifd _ (mul_ip_n _) ?a) _ = Some z /\ _) => g1u ifdn_ok a
  | |- Logic.ex (fun z => bind (ifd _ (fp2_mul_ip _) ?a) _ = Some z /\ _) => g1u ifd_ok a
  | |- Logic.ex (fun z => bind (fp2_mul _ ?a ?b) _ = Some z /\ _) =>
      lazymatch goal with HA : rep2 r 0 1 ?e a ?u |- _ => lazymatch goal with HB : rep2 r 0 1 ?e2 b ?v |- _ => let f := fresh "f" in let E := fresh "E" in let Q := fresh "Q" in
        destruct (mul2e r Hf Hs HT e e2 a b u v ltac:(lia) HA HB) as [f [E Q]]; rewrite E; cbn [bind]; clear E end end
  | |- Logic.ex (fun z => bind (fp2_imul _ ?a _) _ = Some z /\ _) =>
      lazymatch goal with HA : rep2 r 0 1 ?e a ?u |- _ => let f := fresh "f" in let E := fresh "E" in let Q := fresh "Q" in
        destruct (cst_ok e a u ltac:(lia) ltac:(lia) HA) as [f [E Q]]; destruct (fp2_imul r a (3 * bi)) as [?t|]; [|discriminate E]; cbn [bind] in E |- *; rewrite E; cbn [bind]; clear E; rnorm Q end
  end.
(** the complete addition law for a = 0 *)
Definition rcbz (P Q : Z2 * Z2 * Z2) : Z2 * Z2 * Z2 :=
  let '(X1, Y1, Z1) := P in let '(X2, Y2, Z2) := Q in
  let s := add2 (mul2 X1 Z2) (mul2 X2 Z1) in
  let b3 := scale2 3 bt in
  let u := sub2 (mul2 Y1 Y2) (mul2 b3 (mul2 Z1 Z2)) in
  let v := add2 (mul2 Y1 Y2) (mul2 b3 (mul2 Z1 Z2)) in
  let w := mul2 b3 s in
  let n := add2 (add2 (mul2 X1 X2) (mul2 X1 X2)) (mul2 X1 X2) in
  let t := add2 (mul2 X1 Y2) (mul2 X2 Y1) in
  let q := add2 (mul2 Y1 Z2) (mul2 Y2 Z1) in
  (sub2 (mul2 t u) (mul2 q w), add2 (mul2 n w) (mul2 v u), add2 (mul2 q v) (mul2 t n)).
Definition prep3 (e : Z) (P : ecp2) (u : Z2 * Z2 * Z2) : Prop := rep3 r e P (fst (fst u)) (snd (fst u)) (snd u).
Definition scl (s : Z2) (u : Z2 * Z2 * Z2) : Z2 * Z2 * Z2 := (mul2 s (fst (fst u)), mul2 s (snd (fst u)), mul2 s (snd u)).
Ltac gfin := lazymatch goal with |- rep2 r 0 1 _ ?f ?v => lazymatch goal with H : rep2 r 0 1 ?e f ?u |- _ =>
  replace v with u by ring; eapply (rep2_mono r Hf); [| | |exact H]; lia end end.
Lemma add3_ok P Q u v : prep3 16200 P u -> prep3 16200 Q v -> exists R, ecp2_add r tw bi P Q = Some R /\ prep3 30 R (scl (mul2 sx sx) (rcbz u v)).
Proof.
  intros [PX [PY PZ]] [QX [QY QZ]]. unfold ecp2_add. destruct u as [[X1 Y1] Z1], v as [[X2 Y2] Z2]. cbn [fst snd] in *.
  assert (T31 : 2 ^ 31 = 2147483648) by reflexivity.
  repeat gstep. eexists. split; [reflexivity|]. unfold prep3, rep3, scl, rcbz. cbn [x2 y2 z2 fst snd]. split; [gfin|split; gfin].
Qed.
Definition dblz (P : Z2 * Z2 * Z2) : Z2 * Z2 * Z2 :=
  let '(X1, Y1, Z1) := P in
  let b3 := scale2 3 bt in
  let e := mul2 b3 (mul2 Z1 Z1) in
  let d := sub2 (mul2 Y1 Y1) (add2 e (add2 e e)) in
  let y8 := mul2 (k2 8) (mul2 Y1 Y1) in
  (mul2 (k2 2) (mul2 d (mul2 X1 Y1)), add2 (mul2 d (add2 (mul2 Y1 Y1) e)) (mul2 e y8), mul2 y8 (mul2 Y1 Z1)).
Lemma dbl3_ok P u : prep3 16200 P u -> exists R, ecp2_dbl r tw bi P = Some R /\ prep3 30 R (scl (mul2 sx sx) (dblz u)).
Proof.
  intros [PX [PY PZ]]. unfold ecp2_dbl. destruct u as [[X1 Y1] Z1]. cbn [fst snd] in *.
  assert (T31 : 2 ^ 31 = 2147483648) by reflexivity.
  repeat gstep. eexists. split; [reflexivity|]. unfold prep3, rep3, scl, dblz. cbn [x2 y2 z2 fst snd].
  change (k2 8) with (add2 (add2 (add2 one2 one2) (add2 one2 one2)) (add2 (add2 one2 one2) (add2 one2 one2))). change (k2 2) with (add2 one2 one2). split; [gfin|split; gfin].
Qed.
Lemma eq3_ok e P Q u v : e <= 524288 -> prep3 e P u -> prep3 e Q v ->
  ecp2_equals r P Q = Some (eqb2 r (mul2 (fst (fst u)) (snd v)) (mul2 (fst (fst v)) (snd u)) && eqb2 r (mul2 (snd (fst u)) (snd v)) (mul2 (snd (fst v)) (snd u))).
Proof.
  intros He [PX [PY PZ]] [QX [QY QZ]]. unfold ecp2_equals. destruct u as [[X1 Y1] Z1], v as [[X2 Y2] Z2]. cbn [fst snd] in *.
  destruct (mul2e r Hf Hs HT e e _ _ _ _ He PX QZ) as [a [A1 A2]]. rewrite A1. cbn [bind]. destruct (mul2e r Hf Hs HT e e _ _ _ _ He QX PZ) as [b [B1 B2]]. rewrite B1. cbn [bind].
  rewrite (equals2_ok r Hf 0 1 3 0 1 3 a b _ _ ltac:(lia) ltac:(lia) ltac:(lia) ltac:(lia) ltac:(lia) ltac:(lia) ltac:(lia) ltac:(lia) A2 B2). cbn [bind].
  fold (eqb2 r (mul2 X1 Z2) (mul2 X2 Z1)). destruct (eqb2 r (mul2 X1 Z2) (mul2 X2 Z1)); cbn [negb andb]; [|reflexivity].
  destruct (mul2e r Hf Hs HT e e _ _ _ _ He PY QZ) as [a' [A3 A4]]. rewrite A3. cbn [bind]. destruct (mul2e r Hf Hs HT e e _ _ _ _ He QY PZ) as [b' [B3 B4]]. rewrite B3. cbn [bind].
  rewrite (equals2_ok r Hf 0 1 3 0 1 3 a' b' _ _ ltac:(lia) ltac:(lia) ltac:(lia) ltac:(lia) ltac:(lia) ltac:(lia) ltac:(lia) ltac:(lia) A4 B4). reflexivity.
Qed.
End A2.
