(** The point operations of ecp.rs on limbs: the coordinates they return, as integers modulo p. *)
From Verif Require Import Base.Word Model.Big Model.Roms Model.Fp Model.Ecp Spec.BigSpec Spec.RomSpec Spec.FpSpec
  Proof.BigVal Proof.BigMod Proof.BigShift Proof.BigMonty Proof.BigMul Proof.FpBase Proof.FpRed Proof.FpOps Proof.FpPow Proof.FpExp Proof.FpIv Proof.NumTheory.

(** three integers standing for projective coordinates *)
Definition zpt : Type := (Z * Z * Z)%type.
Definition prep (r : rom) (P : ecp) (v : zpt) : Prop :=
  frep r 0 1 (FEXCESS r) (ex P) (fst (fst v)) /\ frep r 0 1 (FEXCESS r) (ey P) (snd (fst v)) /\ frep r 0 1 (FEXCESS r) (ez P) (snd v).

(** multipliers: on a Montgomery-representation field a multiplier must be positive and small *)
Definition mult_ok (r : rom) (e k : Z) : Prop :=
  - 2 ^ BASEBITS (r_cfg r) < k < 2 ^ BASEBITS (r_cfg r) /\ (special r = true \/ k <> 0 /\ e * Z.abs k < 2 ^ 31).

Section Ops.
Variable r : rom.
Hypothesis Hf : fp_ok r.
Hypothesis HMX : MX r = FEXCESS r.
Notation c := (r_cfg r).
Notation B := (BASEBITS (r_cfg r)).
Notation C := (CHUNK (r_cfg r)).
Notation N := (NLEN (r_cfg r)).
Notation X := (2 ^ BASEBITS (r_cfg r)).
Notation V := (val (BASEBITS (r_cfg r))).
Notation p := (pmod r).
Notation FX := (FEXCESS r).
Notation CA := (r_CURVE_A r).
Notation CBI := (r_CURVE_B_I r).
Let Hmg : 4 <= maxg r := maxg_ge r Hf.
Let HSH : 32 <= 2 ^ r_SH r := SH_pos r Hf.
Let HFX : 31 <= FX. Proof. unfold FEXCESS. lia. Qed.

Lemma frep_fx lo hi e f v : frep r lo hi e f v -> frep r lo hi FX f v.
Proof. intros [A [B0 D]]. split; [exact A|]. split; [lia|exact D]. Qed.
Lemma iimul e a u k : mult_ok r e k -> frep r 0 1 e a u -> exists f, fp_imul r a k = Some f /\ frep r 0 1 FX f (u * k).
Proof.
  intros [Hk Hov] HA. pose proof (frep_e _ _ _ _ _ _ HA) as [He1 He2].
  assert (HR : fp_rep r 1 a u) by (apply (frep_rep r Hf 0 1 e); [lia|lia|exact HA]).
  assert (G : exists f, fp_imul r a k = Some f /\ fp_rep r 1 f (u * k)).
  { destruct (Z.ltb_spec k 0) as [L|L].
    - apply imul_neg_rep; [exact Hf|lia| |exact HR]. destruct Hov as [Hov|[_ Hov]]; [left; exact Hov|right].
      assert (fxes a * - k <= e * - k) by (apply Z.mul_le_mono_nonneg_r; lia). lia.
    - apply imul_pos_rep; [exact Hf| |lia| |exact HR]; destruct Hov as [Hov|[Hz Hov]]; [left; exact Hov|right; lia|left; exact Hov|right].
      assert (fxes a * k <= e * k) by (apply Z.mul_le_mono_nonneg_r; lia). lia. }
  destruct G as [f [E1 E2]]. exists f. split; [exact E1|]. apply rep_frep1; [|exact E2]. destruct E2 as [[_ [_ [E2 _]]] _]. lia.
Qed.
Lemma irsub lo1 hi1 e1 lo2 hi2 e2 a b u v : 0 <= lo1 -> 0 <= lo2 -> 1 <= hi1 -> 1 <= hi2 -> hi2 + lo1 + 1 <= maxg r -> lo2 + hi1 + 1 <= maxg r -> frep r lo1 hi1 e1 a u -> frep r lo2 hi2 e2 b v ->
  exists f, fp_rsub r a b = Some f /\ frep r (hi1 + lo2) (lo1 + 1 + hi2) (4 * e1 + e2) f (v - u).
Proof.
  intros H1 H2 H3 H4 H5 H6 HA HB. unfold fp_rsub. destruct (ineg r Hf lo1 hi1 e1 a u) as [n [E1 E2]]; try lia; [exact HA|]. rewrite E1. cbn [bind].
  destruct (iadd r Hf hi1 (lo1 + 1) (4 * e1) lo2 hi2 e2 n b (- u) v) as [f [E3 E4]]; try lia; try assumption. exists f. split; [exact E3|].
  replace (v - u) with (- u + v) by lia. exact E4.
Qed.
End Ops.

Lemma bind_bind {A B C : Type} (x : option A) (f : A -> option B) (g : B -> option C) : bind (bind x f) g = bind x (fun a => bind (f a) g).
Proof. destruct x; reflexivity. Qed.
Ltac eside r := first [ assumption | match goal with H : 8 <= maxg r |- _ => clear - H; lia end | match goal with H : 4 <= maxg r |- _ => clear - H; lia end | lia ].
Ltac ego1 r lem a := lazymatch goal with Hf : fp_ok r |- _ => lazymatch goal with HA : frep r ?lo ?hi ?e a ?u |- _ =>
  let f := fresh "f" in let E := fresh "E" in let Q := fresh "Q" in
  destruct (lem r Hf lo hi e a u) as [f [E Q]]; [eside r ..|]; rewrite E; cbn [bind]; clear E; fnorm Q end end.
Ltac ego2 r lem a b := lazymatch goal with Hf : fp_ok r |- _ => lazymatch goal with HA : frep r ?lo ?hi ?e a ?u |- _ => lazymatch goal with HB : frep r ?lo2 ?hi2 ?e2 b ?v |- _ =>
  let f := fresh "f" in let E := fresh "E" in let Q := fresh "Q" in
  destruct (lem r Hf lo hi e lo2 hi2 e2 a b u v) as [f [E Q]]; [eside r ..|]; rewrite E; cbn [bind]; clear E; fnorm Q end end end.
Ltac egoi r a k := lazymatch goal with Hf : fp_ok r |- _ => lazymatch goal with HA : frep r 0 1 ?e a ?u |- _ =>
  let f := fresh "f" in let E := fresh "E" in let Q := fresh "Q" in
  destruct (iimul r Hf e a u k) as [f [E Q]]; [assumption ..|]; rewrite E; cbn [bind]; clear E end end.
Ltac estep := lazymatch goal with
  | |- Logic.ex (fun z => bind (fp_add ?r ?a ?b) _ = Some z /\ _) => ego2 r iadd a b
  | |- Logic.ex (fun z => bind (fp_sub ?r ?a ?b) _ = Some z /\ _) => ego2 r isub a b
  | |- Logic.ex (fun z => bind (fp_rsub ?r ?a ?b) _ = Some z /\ _) => ego2 r irsub a b
  | |- Logic.ex (fun z => bind (fp_neg ?r ?a) _ = Some z /\ _) => ego1 r ineg a
  | |- Logic.ex (fun z => bind (fp_norm ?r ?a) _ = Some z /\ _) => ego1 r inorm a
  | |- Logic.ex (fun z => bind (fp_dbl ?r ?a) _ = Some z /\ _) => ego1 r idbl a
  | |- Logic.ex (fun z => bind (fp_mul ?r ?a ?b) _ = Some z /\ _) => fgom r a b
  | |- Logic.ex (fun z => bind (fp_sqr ?r ?a) _ = Some z /\ _) => fgos r a
  | |- Logic.ex (fun z => bind (fp_imul ?r ?a ?k) _ = Some z /\ _) => egoi r a k
  end.
Ltac efin := lazymatch goal with Hf : fp_ok ?r |- frep ?r 0 1 _ ?f ?v => lazymatch goal with H : frep r 0 1 ?e f ?u |- _ =>
  apply (frep_fx r 0 1 e); apply (frep_cong r 0 1 e f u); [f_equal; ring|exact H] end end.

(** the Renes-Costello-Batina formulas for y^2 = x^3 + a x + b *)
Definition rcb (a b : Z) (P Q : zpt) : zpt :=
  let '(X1, Y1, Z1) := P in let '(X2, Y2, Z2) := Q in
  let s := X1 * Z2 + X2 * Z1 in
  let u := Y1 * Y2 - a * s - 3 * b * Z1 * Z2 in
  let v := Y1 * Y2 + a * s + 3 * b * Z1 * Z2 in
  let w := a * X1 * X2 + 3 * b * s - a * a * Z1 * Z2 in
  let n := 3 * X1 * X2 + a * Z1 * Z2 in
  let t := X1 * Y2 + X2 * Y1 in
  let q := Y1 * Z2 + Y2 * Z1 in
  (t * u - q * w, n * w + v * u, q * v + t * n).
Section Pts.
Variable r : rom.
Hypothesis Hf : fp_ok r.
Hypothesis HMX : MX r = FEXCESS r.
Notation p := (pmod r).
Notation FX := (FEXCESS r).
Notation CA := (r_CURVE_A r).
Notation CBI := (r_CURVE_B_I r).
Let Hmg : 4 <= maxg r := maxg_ge r Hf.

Lemma add_w0_ok P Q u v : mult_ok r 18 (3 * CBI) -> prep r P u -> prep r Q v -> exists z, ecp_add_w0 r P Q = Some z /\ prep r z (rcb 0 CBI u v).
Proof.
  intros HM [PX [PY PZ]] [QX [QY QZ]]. unfold ecp_add_w0. destruct u as [[X1 Y1] Z1], v as [[X2 Y2] Z2]. cbn [fst snd] in *. cbv zeta.
  assert (HM2 : mult_ok r 2 (3 * CBI)).
  { destruct HM as [A [D|[D1 D2]]]; (split; [exact A|]); [left; exact D|right]. split; [exact D1|lia]. }
  repeat estep. eexists. split; [reflexivity|]. unfold prep, rcb. cbn [ex ey ez fst snd]. cbv zeta. split; [efin|split; efin].
Qed.

Definition dbl0 (b : Z) (P : zpt) : zpt :=
  let '(X1, Y1, Z1) := P in
  (2 * X1 * Y1 * (Y1 * Y1 - 9 * b * Z1 * Z1), (Y1 * Y1 - 9 * b * Z1 * Z1) * (Y1 * Y1 + 3 * b * Z1 * Z1) + 24 * b * Y1 * Y1 * Z1 * Z1, 8 * Y1 * Y1 * Y1 * Z1).
Lemma dbl_w0_ok P u : mult_ok r 18 (3 * CBI) -> prep r P u -> exists R, ecp_dbl_w0 r P = Some R /\ prep r R (dbl0 CBI u).
Proof.
  intros HM [PX [PY PZ]]. unfold ecp_dbl_w0. destruct u as [[X1 Y1] Z1]. cbn [fst snd] in *. cbv zeta.
  assert (HM2 : mult_ok r 2 (3 * CBI)).
  { destruct HM as [A [D|[D1 D2]]]; (split; [exact A|]); [left; exact D|right]. split; [exact D1|lia]. }
  repeat estep. eexists. split; [reflexivity|]. unfold prep, dbl0. cbn [ex ey ez fst snd]. cbv zeta. split; [efin|split; efin].
Qed.

(** multiplication by the curve constant b *)
Definition bval3 (b : Z) : Prop := if CBI =? 0 then big_wf (r_cfg r) (r_CURVE_B r) /\ bval (r_cfg r) (r_CURVE_B r) < p /\ b = bval (r_cfg r) (r_CURVE_B r) else b = CBI /\ mult_ok r FX CBI.
Lemma getb_ok b : bval3 b -> exists f, getb r = Some f /\ forall e a u, frep r 0 1 e a u -> exists g, mulb r f a = Some g /\ frep r 0 1 FX g (b * u).
Proof.
  unfold bval3, getb, mulb. destruct (CBI =? 0) eqn:E.
  - intros [W [WB ->]]. destruct (nres_rep r Hf (r_CURVE_B r) W (fun _ => WB)) as [f [E1 [E2 E3]]]. exists f. split; [exact E1|]. intros e a u HA.
    destruct (imulf r Hf e 2 a f u (bval (r_cfg r) (r_CURVE_B r)) HMX HA) as [g [E4 E5]]; [apply rep_frep1; assumption|].
    exists g. split; [exact E4|]. rewrite Z.mul_comm. exact (frep_fx r 0 1 2 _ _ E5).
  - intros [-> HM]. exists (fp_new r). split; [reflexivity|]. intros e a u HA.
    destruct (iimul r Hf FX a u CBI HM (frep_fx r 0 1 e _ _ HA)) as [g [E4 E5]]. exists g. split; [exact E4|]. rewrite Z.mul_comm. exact E5.
Qed.
Ltac ebstep := lazymatch goal with H : forall e a u, frep _ 0 1 e a u -> exists g, mulb _ ?b a = Some g /\ _ |- Logic.ex (fun z => bind (mulb _ ?b ?a) _ = Some z /\ _) =>
  lazymatch goal with HA : frep r 0 1 ?e a ?u |- _ => let f := fresh "f" in let E := fresh "E" in let Q := fresh "Q" in
  destruct (H e a u HA) as [f [E Q]]; rewrite E; cbn [bind]; clear E end end.
Lemma add_w3_ok P Q u v b : 8 <= maxg r -> bval3 b -> prep r P u -> prep r Q v -> exists R, ecp_add_w3 r P Q = Some R /\ prep r R (rcb (-3) b u v).
Proof.
  intros H8 HM [PX [PY PZ]] [QX [QY QZ]]. unfold ecp_add_w3. destruct u as [[X1 Y1] Z1], v as [[X2 Y2] Z2]. cbn [fst snd] in *. cbv zeta.
  destruct (getb_ok b HM) as [fb [Eb Hb]]. rewrite Eb. cbn [bind].
  repeat first [estep|ebstep]. eexists. split; [reflexivity|]. unfold prep, rcb. cbn [ex ey ez fst snd]. cbv zeta. split; [efin|split; efin].
Qed.
Definition dbl3 (a b : Z) (P : zpt) : zpt := let '(X1, Y1, Z1) := P in let '(X3, Y3, Z3) := rcb a b P P in (X3, Y3, 8 * Y1 * Y1 * Y1 * Z1).
Lemma dbl_w3_ok P u b : 8 <= maxg r -> bval3 b -> prep r P u -> exists R, ecp_dbl_w3 r P = Some R /\ prep r R (dbl3 (-3) b u).
Proof.
  intros H8 HM [PX [PY PZ]]. unfold ecp_dbl_w3. destruct u as [[X1 Y1] Z1]. cbn [fst snd] in *. cbv zeta.
  destruct (getb_ok b HM) as [fb [Eb Hb]]. rewrite Eb. cbn [bind].
  repeat first [estep|ebstep]. eexists. split; [reflexivity|]. unfold prep, dbl3, rcb. cbn [ex ey ez fst snd]. cbv zeta. split; [efin|split; efin].
Qed.

(** Edwards curves a x^2 + y^2 = 1 + d x^2 y^2, a = 1 or -1 *)
Definition ed_add (a d : Z) (P Q : zpt) : zpt :=
  let '(X1, Y1, Z1) := P in let '(X2, Y2, Z2) := Q in
  let f := Z1 * Z2 * Z1 * Z2 - d * X1 * X2 * Y1 * Y2 in
  let g := Z1 * Z2 * Z1 * Z2 + d * X1 * X2 * Y1 * Y2 in
  (Z1 * Z2 * f * (X1 * Y2 + X2 * Y1), Z1 * Z2 * g * (Y1 * Y2 - a * X1 * X2), f * g).
Lemma add_e_ok P Q u v : CA = 1 \/ CA = -1 -> big_wf (r_cfg r) (r_CURVE_B r) -> bval (r_cfg r) (r_CURVE_B r) < p -> prep r P u -> prep r Q v ->
  exists R, ecp_add_e r P Q = Some R /\ prep r R (ed_add CA (bval (r_cfg r) (r_CURVE_B r)) u v).
Proof.
  intros HA W WB [PX [PY PZ]] [QX [QY QZ]]. unfold ecp_add_e. destruct u as [[X1 Y1] Z1], v as [[X2 Y2] Z2]. cbn [fst snd] in *. cbv zeta.
  destruct (nres_rep r Hf (r_CURVE_B r) W (fun _ => WB)) as [b0 [E1 [E2 E3]]]. unfold fp_new_big. rewrite E1. cbn [bind]. apply (rep_frep1 r 2 b0 _ E2) in E3. set (bb := bval (r_cfg r) (r_CURVE_B r)) in *.
  destruct HA as [EA|EA]; rewrite EA.
  - change (1 =? 1) with true. change (1 =? -1) with false. cbv iota. repeat first [estep|rewrite bind_bind|progress cbn [bind]].
    eexists. split; [reflexivity|]. unfold prep, ed_add. cbn [ex ey ez fst snd]. cbv zeta. split; [efin|split; efin].
  - change (-1 =? 1) with false. change (-1 =? -1) with true. cbv iota. repeat first [estep|rewrite bind_bind|progress cbn [bind]].
    eexists. split; [reflexivity|]. unfold prep, ed_add. cbn [ex ey ez fst snd]. cbv zeta. split; [efin|split; efin].
Qed.
Definition ed_dbl (a : Z) (P : zpt) : zpt :=
  let '(X1, Y1, Z1) := P in
  let f := a * X1 * X1 + Y1 * Y1 in
  let j := f - 2 * Z1 * Z1 in
  (2 * X1 * Y1 * j, f * (a * X1 * X1 - Y1 * Y1), f * j).
Lemma dbl_e_ok P u : CA = 1 \/ CA = -1 -> prep r P u -> exists R, ecp_dbl_e r P = Some R /\ prep r R (ed_dbl CA u).
Proof.
  intros HA [PX [PY PZ]]. unfold ecp_dbl_e. destruct u as [[X1 Y1] Z1]. cbn [fst snd] in *. cbv zeta.
  destruct HA as [EA|EA]; rewrite EA.
  - change (1 =? -1) with false. cbv iota. repeat first [estep|rewrite bind_bind|progress cbn [bind]].
    eexists. split; [reflexivity|]. unfold prep, ed_dbl. cbn [ex ey ez fst snd]. cbv zeta. split; [efin|split; efin].
  - change (-1 =? -1) with true. cbv iota. repeat first [estep|rewrite bind_bind|progress cbn [bind]].
    eexists. split; [reflexivity|]. unfold prep, ed_dbl. cbn [ex ey ez fst snd]. cbv zeta. split; [efin|split; efin].
Qed.

(** Montgomery curves y^2 = x^3 + A x^2 + x: x-only formulas; y is carried along unchanged *)
Definition mg_dbl (a24 : Z) (P : zpt) : zpt :=
  let '(X1, Y1, Z1) := P in
  let aa := (X1 + Z1) * (X1 + Z1) in let bb := (X1 - Z1) * (X1 - Z1) in
  (aa * bb, Y1, (aa - bb) * (bb + a24 * (aa - bb))).
Lemma dbl_m_ok P u : mult_ok r FX (Z.quot (CA + 2) 4) -> prep r P u -> exists R, ecp_dbl_m r P = Some R /\ prep r R (mg_dbl (Z.quot (CA + 2) 4) u).
Proof.
  intros HM [PX [PY PZ]]. unfold ecp_dbl_m. destruct u as [[X1 Y1] Z1]. cbn [fst snd] in *. cbv zeta.
  set (k := Z.quot (CA + 2) 4) in *. repeat estep.
  lazymatch goal with HA : frep r 0 1 ?e ?a _ |- Logic.ex (fun z => bind (fp_imul _ ?a _) _ = _ /\ _) => apply (frep_fx r 0 1 e) in HA end.
  repeat estep. eexists. split; [reflexivity|]. unfold prep, mg_dbl. cbn [ex ey ez fst snd]. cbv zeta. split; [efin|split; efin].
Qed.
Definition mg_add (P Q W : zpt) : zpt :=
  let '(X1, Y1, Z1) := P in let '(X2, Y2, Z2) := Q in let '(XW, YW, ZW) := W in
  let da := (X2 - Z2) * (X1 + Z1) in let cb := (X2 + Z2) * (X1 - Z1) in
  ((da + cb) * (da + cb), Y1, XW * ((da - cb) * (da - cb))).
Lemma dadd_ok P Q W u v w : prep r P u -> prep r Q v -> prep r W w -> exists R, ecp_dadd r P Q W = Some R /\ prep r R (mg_add u v w).
Proof.
  intros [PX [PY PZ]] [QX [QY QZ]] [WX [WY WZ]]. unfold ecp_dadd. destruct u as [[X1 Y1] Z1], v as [[X2 Y2] Z2], w as [[X3 Y3] Z3]. cbn [fst snd] in *. cbv zeta.
  repeat estep. eexists. split; [reflexivity|]. unfold prep, mg_add. cbn [ex ey ez fst snd]. cbv zeta. split; [efin|split; efin].
Qed.
End Pts.
