(** Proof/Weier.v over an arbitrary field of characteristic other than 2 with decidable equality: the Renes-Costello-Batina formulas
    compute the chord-and-tangent law, without exceptions, when there is no point of order two; and that law is a commutative group. *)
From Coq Require Import Ring Field Bool Lia.
From Verif Require Import Proof.WeierId.

Declare Scope K_scope.
Delimit Scope K_scope with K.
Section W.
Variable K : Type.
Variables (k0 k1 : K) (kadd kmul ksub : K -> K -> K) (kopp : K -> K) (kdiv : K -> K -> K) (kinv : K -> K).
Hypothesis KF : field_theory k0 k1 kadd kmul ksub kopp kdiv kinv (@eq K).
Hypothesis KD : forall x y : K, {x = y} + {x <> y}.
Hypothesis KI : forall x y, kmul x y = k0 -> x = k0 \/ y = k0.
Hypothesis K2 : kadd k1 k1 <> k0.
Notation "0" := k0 : K_scope.
Notation "1" := k1 : K_scope.
Infix "+" := kadd : K_scope.
Infix "*" := kmul : K_scope.
Infix "-" := ksub : K_scope.
Infix "/" := kdiv : K_scope.
Notation "- x" := (kopp x) : K_scope.
Open Scope K_scope.
Add Field Kfield : KF.
Variables a b : K.
Notation "2" := (1 + 1) : K_scope.
Notation "3" := (1 + 1 + 1) : K_scope.
Notation "8" := (2 * 2 * 2) : K_scope.

Definition kpt : Type := (K * K * K)%type.
Definition krcb (P Q : kpt) : kpt :=
  let '(X1, Y1, Z1) := P in let '(X2, Y2, Z2) := Q in
  let s := X1 * Z2 + X2 * Z1 in
  let u := Y1 * Y2 - a * s - 3 * b * Z1 * Z2 in
  let v := Y1 * Y2 + a * s + 3 * b * Z1 * Z2 in
  let w := a * X1 * X2 + 3 * b * s - a * a * Z1 * Z2 in
  let n := 3 * X1 * X2 + a * Z1 * Z2 in
  let t := X1 * Y2 + X2 * Y1 in
  let q := Y1 * Z2 + Y2 * Z1 in
  (t * u - q * w, n * w + v * u, q * v + t * n).

Inductive apt := AInf | AAff (x y : K).
Definition aon (P : apt) : Prop := match P with AInf => True | AAff x y => y * y = x * x * x + a * x + b end.
Definition kden (P : kpt) (A : apt) : Prop :=
  let '(X1, Y1, Z1) := P in
  match A with AInf => X1 = 0 /\ Z1 = 0 /\ Y1 <> 0 | AAff x y => Z1 <> 0 /\ X1 = x * Z1 /\ Y1 = y * Z1 end.
Hypothesis Hno2 : forall x, x * x * x + a * x + b <> 0.

Lemma two_nz : 2 <> 0. Proof. exact K2. Qed.
Lemma y_nz x y : aon (AAff x y) -> y <> 0.
Proof. cbn. intros H E. apply (Hno2 x). rewrite <- H, E. ring. Qed.
Lemma mul_nz x y : x <> 0 -> y <> 0 -> x * y <> 0.
Proof. intros H1 H2 H. destruct (KI x y H); contradiction. Qed.

(** the affine law as a function *)
Definition chord (x1 y1 x2 y2 l : K) : apt := AAff (l * l - x1 - x2) (l * (x1 - (l * l - x1 - x2)) - y1).
Definition asum (P Q : apt) : apt :=
  match P, Q with
  | AInf, _ => Q
  | _, AInf => P
  | AAff x1 y1, AAff x2 y2 =>
      if KD x1 x2 then if KD (y1 + y2) 0 then AInf else chord x1 y1 x2 y2 ((3 * x1 * x1 + a) / (2 * y1))
      else chord x1 y1 x2 y2 ((y2 - y1) / (x2 - x1))
  end.
Definition aneg (P : apt) : apt := match P with AInf => AInf | AAff x y => AAff x (- y) end.

Lemma sub_nz x y : x <> y -> y - x <> 0.
Proof. intros H E. apply H. transitivity (y - (y - x)); [ring|rewrite E; ring]. Qed.
Lemma solve_b x y : aon (AAff x y) -> b = y * y - x * x * x - a * x.
Proof. cbn. intros ->. ring. Qed.
Lemma solve_a x1 y1 x2 y2 : aon (AAff x1 y1) -> aon (AAff x2 y2) -> x1 <> x2 ->
  a = (y2 * y2 - y1 * y1 - (x2 * x2 * x2 - x1 * x1 * x1)) / (x2 - x1) /\ b = y1 * y1 - x1 * x1 * x1 - (y2 * y2 - y1 * y1 - (x2 * x2 * x2 - x1 * x1 * x1)) / (x2 - x1) * x1.
Proof.
  cbn. intros H1 H2 H. pose proof (sub_nz _ _ H) as D. assert (Ea : a = (y2 * y2 - y1 * y1 - (x2 * x2 * x2 - x1 * x1 * x1)) / (x2 - x1)).
  { rewrite H1, H2. field. exact D. }
  split; [exact Ea|]. rewrite <- Ea. rewrite H1. ring.
Qed.
Lemma same_x x y1 y2 : aon (AAff x y1) -> aon (AAff x y2) -> y1 = y2 \/ y1 + y2 = 0.
Proof.
  cbn. intros H1 H2. assert (H : (y1 - y2) * (y1 + y2) = 0) by (transitivity (y1 * y1 - y2 * y2); [ring|rewrite H1, H2; ring]).
  destruct (KI _ _ H) as [E|E]; [left|right; exact E]. transitivity (y2 + (y1 - y2)); [ring|rewrite E; ring].
Qed.
Lemma aneg_on P : aon P -> aon (aneg P).
Proof. destruct P as [|x y]; cbn; [auto|]. intros <-. ring. Qed.
Lemma chord_on x1 y1 x2 y2 : aon (AAff x1 y1) -> aon (AAff x2 y2) -> x1 <> x2 -> aon (chord x1 y1 x2 y2 ((y2 - y1) / (x2 - x1))).
Proof.
  intros H1 H2 H. destruct (solve_a _ _ _ _ H1 H2 H) as [Ea Eb]. pose proof (sub_nz _ _ H) as D. unfold chord, aon. rewrite Eb, Ea. field. exact D.
Qed.
Lemma tangent_on x y : aon (AAff x y) -> y <> 0 -> aon (chord x y x y ((3 * x * x + a) / (2 * y))).
Proof.
  intros H1 H. pose proof two_nz. unfold chord, aon. rewrite (solve_b x y H1). field. split; assumption.
Qed.
Lemma asum_on P Q : aon P -> aon Q -> aon (asum P Q).
Proof.
  intros HP HQ. destruct P as [|x1 y1], Q as [|x2 y2]; cbn [asum]; try assumption.
  destruct (KD x1 x2) as [<-|Hx]; [|apply chord_on; assumption].
  destruct (KD (y1 + y2) 0) as [E|E]; [exact I|]. destruct (same_x _ _ _ HP HQ) as [<-|E2]; [|contradiction]. apply tangent_on; [exact HP|exact (y_nz _ _ HP)].
Qed.

Lemma krcb_ok P Q A C : aon A -> aon C -> kden P A -> kden Q C -> kden (krcb P Q) (asum A C).
Proof.
  destruct P as [[X1 Y1] Z1], Q as [[X2 Y2] Z2]. intros OA OC HA HC. pose proof two_nz as H2.
  destruct A as [|x1 y1], C as [|x2 y2]; cbn [asum].
  - destruct HA as [-> [-> HY1]], HC as [-> [-> HY2]]. cbn [krcb kden]. split; [ring|]. split; [ring|].
    match goal with |- ?e <> 0 => replace e with (Y1 * Y2 * (Y1 * Y2)) by ring end. auto using mul_nz.
  - destruct HA as [-> [-> HY1]], HC as [HZ2 [-> ->]]. cbn [krcb kden]. pose proof (y_nz _ _ OC) as Hy.
    split. { match goal with |- ?e <> 0 => replace e with (Y1 * Y1 * y2 * Z2 * Z2) by ring end. auto using mul_nz. } split; ring.
  - destruct HA as [HZ1 [-> ->]], HC as [-> [-> HY2]]. cbn [krcb kden]. pose proof (y_nz _ _ OA) as Hy.
    split. { match goal with |- ?e <> 0 => replace e with (Y2 * Y2 * y1 * Z1 * Z1) by ring end. auto using mul_nz. } split; ring.
  - destruct HA as [HZ1 [-> ->]], HC as [HZ2 [-> ->]]. destruct (KD x1 x2) as [<-|Hx].
    + destruct (KD (y1 + y2) 0) as [E|E].
      * assert (Ey : y2 = - y1) by (transitivity (y1 + y2 - y1); [ring|rewrite E; ring]). subst y2. cbn [krcb kden]. split; [ring|]. split; [ring|].
        pose proof (y_nz _ _ OA) as Hy. pose proof (y_nz _ _ (tangent_on _ _ OA Hy)) as Hy2.
        match type of Hy2 with ?v <> 0 => match goal with |- ?e <> 0 => replace e with (Z1 * Z1 * Z2 * Z2 * (8 * y1 * y1 * y1 * v)) end end.
        -- auto 20 using mul_nz.
        -- rewrite (solve_b _ _ OA). field. split; assumption.
      * destruct (same_x _ _ _ OA OC) as [<-|E2]; [|contradiction]. pose proof (y_nz _ _ OA) as Hy. cbn [krcb kden chord].
        split. { match goal with |- ?e <> 0 => replace e with (Z1 * Z1 * Z2 * Z2 * (8 * y1 * y1 * y1)) by (rewrite (solve_b _ _ OA); ring) end. auto 20 using mul_nz. }
        split; rewrite (solve_b _ _ OA); field; split; assumption.
    + pose proof (sub_nz _ _ Hx) as D. destruct (solve_a _ _ _ _ OA OC Hx) as [Ea Eb].
      assert (OC' : aon (AAff x2 (- y2))) by exact (aneg_on (AAff x2 y2) OC).
      pose proof (y_nz _ _ (chord_on _ _ _ _ OA OC' Hx)) as Hy. cbn [krcb kden chord].
      split.
      { match type of Hy with ?v <> 0 => match goal with |- ?e <> 0 => replace e with (Z1 * Z1 * Z2 * Z2 * ((x2 - x1) * (x2 - x1) * (x2 - x1) * v)) end end.
        - auto 20 using mul_nz.
        - rewrite Eb, Ea. field. exact D. }
      split; rewrite Eb, Ea; field; exact D.
Qed.

(** ** the group law *)
Notation third := (third K kmul ksub).
Notation e2 := (e2 K kadd kmul).
Definition opposite (P Q : apt) : Prop := match P, Q with AAff x1 y1, AAff x2 y2 => x1 = x2 /\ y1 + y2 = 0 | _, _ => False end.
Lemma line x1 y1 x2 y2 : aon (AAff x1 y1) -> aon (AAff x2 y2) -> ~ opposite (AAff x1 y1) (AAff x2 y2) ->
  exists l m, y1 = l * x1 + m /\ y2 = l * x2 + m /\ a = e2 x1 x2 (third l x1 x2) + 2 * l * m /\ asum (AAff x1 y1) (AAff x2 y2) = AAff (third l x1 x2) (- (l * third l x1 x2 + m)).
Proof.
  intros O1 O2 Hn. cbn [asum opposite] in *. destruct (KD x1 x2) as [<-|Hx].
  - destruct (KD (y1 + y2) 0) as [E|E]; [exfalso; apply Hn; split; [reflexivity|exact E]|]. destruct (same_x _ _ _ O1 O2) as [<-|E2]; [|contradiction].
    pose proof (y_nz _ _ O1) as Hy. pose proof two_nz as T2. exists ((3 * x1 * x1 + a) / (2 * y1)), (y1 - (3 * x1 * x1 + a) / (2 * y1) * x1).
    split; [ring|]. split; [ring|]. split; [unfold WeierId.e2, WeierId.third; field; auto|]. unfold chord, WeierId.third. f_equal; ring.
  - pose proof (sub_nz _ _ Hx) as D. destruct (solve_a _ _ _ _ O1 O2 Hx) as [Ea _]. exists ((y2 - y1) / (x2 - x1)), (y1 - (y2 - y1) / (x2 - x1) * x1).
    split; [ring|]. split; [field; exact D|]. split; [rewrite Ea at 1; unfold WeierId.e2, WeierId.third; field; exact D|]. unfold chord, WeierId.third. f_equal; ring.
Qed.
Definition slope (u v x y : K) (c : bool) : K := if c then (y - v) / (x - u) else (x * x + x * u + u * u + a) / (y + v).
Lemma asum_slope u v x y : aon (AAff u v) -> aon (AAff x y) -> ~ opposite (AAff u v) (AAff x y) ->
  exists c : bool, (if c then x - u <> 0 else y + v <> 0) /\ let s := slope u v x y c in asum (AAff u v) (AAff x y) = AAff (s * s - u - x) (s * (x - (s * s - u - x)) - y).
Proof.
  intros O1 O2 Hn. cbn [asum opposite] in *. destruct (KD u x) as [<-|Hx].
  - destruct (KD (v + y) 0) as [E|E]; [exfalso; apply Hn; split; [reflexivity|exact E]|]. destruct (same_x _ _ _ O1 O2) as [<-|E2]; [|contradiction].
    exists false. split; [exact E|]. cbv zeta. unfold slope, chord. replace (u * u + u * u + u * u + a) with (3 * u * u + a) by ring. replace (v + v) with (2 * v) by ring. reflexivity.
  - pose proof (sub_nz _ _ Hx) as D. exists true. split; [exact D|]. cbv zeta. unfold slope, chord. f_equal. field. exact D.
Qed.
Lemma asum_comm P Q : aon P -> aon Q -> asum P Q = asum Q P.
Proof.
  destruct P as [|x1 y1], Q as [|x2 y2]; try reflexivity. intros O1 O2. cbn [asum].
  destruct (KD x1 x2) as [<-|Hx].
  - destruct (KD x1 x1) as [_|N]; [|congruence]. destruct (KD (y1 + y2) 0) as [E|E], (KD (y2 + y1) 0) as [E'|E']; try reflexivity.
    + exfalso. apply E'. rewrite <- E. ring.
    + exfalso. apply E. rewrite <- E'. ring.
    + destruct (same_x _ _ _ O1 O2) as [<-|E2]; [reflexivity|contradiction].
  - destruct (KD x2 x1) as [E|_]; [congruence|]. pose proof (sub_nz _ _ Hx) as D. assert (Hx' : x2 <> x1) by congruence. pose proof (sub_nz _ _ Hx') as D'. unfold chord.
    assert (E : (y2 - y1) / (x2 - x1) = (y1 - y2) / (x1 - x2)) by (field; split; assumption). rewrite <- E. f_equal; [ring|field; exact D].
Qed.
Lemma aneg_sum P Q : aon P -> aon Q -> asum (aneg P) (aneg Q) = aneg (asum P Q).
Proof.
  destruct P as [|x1 y1], Q as [|x2 y2]; try reflexivity. intros O1 O2. cbn [asum aneg].
  destruct (KD x1 x2) as [<-|Hx].
  - destruct (KD (y1 + y2) 0) as [E|E], (KD (- y1 + - y2) 0) as [E'|E']; try reflexivity.
    + exfalso. apply E'. transitivity (- (y1 + y2)); [ring|rewrite E; ring].
    + exfalso. apply E. transitivity (- (- y1 + - y2)); [ring|rewrite E'; ring].
    + pose proof (y_nz _ _ O1) as Hy. pose proof two_nz as T2. unfold chord, aneg.
      assert (Hy' : - y1 <> 0) by (intros Q0; apply Hy; transitivity (- - y1); [ring|rewrite Q0; ring]).
      assert (S0 : (3 * x1 * x1 + a) / (2 * - y1) = - ((3 * x1 * x1 + a) / (2 * y1))) by (field; auto). rewrite S0. f_equal; ring.
  - pose proof (sub_nz _ _ Hx) as D. unfold chord, aneg. assert (S0 : (- y2 - - y1) / (x2 - x1) = - ((y2 - y1) / (x2 - x1))) by (field; exact D). rewrite S0. f_equal; ring.
Qed.
Lemma aneg_aneg P : aneg (aneg P) = P.
Proof. destruct P; cbn; [reflexivity|f_equal; ring]. Qed.
Lemma asum_inf_r P : asum P AInf = P. Proof. destruct P; reflexivity. Qed.
Lemma asum_neg P : asum P (aneg P) = AInf.
Proof. destruct P as [|x y]; [reflexivity|]. cbn. destruct (KD x x); [|congruence]. destruct (KD (y + - y) 0) as [_|E]; [reflexivity|]. exfalso. apply E. ring. Qed.
Lemma opposite_dec P Q : {opposite P Q} + {~ opposite P Q}.
Proof.
  destruct P as [|x1 y1], Q as [|x2 y2]; cbn; try (right; tauto). destruct (KD x1 x2), (KD (y1 + y2) 0); try (right; tauto). left. tauto.
Qed.
Lemma opposite_neg P Q : opposite P Q -> Q = aneg P.
Proof. destruct P as [|x1 y1], Q as [|x2 y2]; cbn; try contradiction. intros [-> E]. f_equal. transitivity (y1 + y2 - y1); [ring|rewrite E; ring]. Qed.
Lemma cancel P Q : aon P -> aon Q -> asum (asum P Q) (aneg Q) = P.
Proof.
  intros OP OQ. destruct (opposite_dec P Q) as [E|E].
  - rewrite (opposite_neg _ _ E). rewrite asum_neg, aneg_aneg. reflexivity.
  - destruct P as [|x1 y1]; [apply asum_neg|]. destruct Q as [|x2 y2]; [reflexivity|].
    pose proof (asum_on _ _ OP OQ) as OS. pose proof (aneg_on _ OQ) as ON.
    destruct (line _ _ _ _ OP OQ E) as [l [m [E1 [E2 [Ea Es]]]]]. rewrite Es in *. cbn [aneg] in *. set (x12 := third l x1 x2) in *.
    assert (T : x1 = l * l - x12 - x2) by (unfold x12, WeierId.third; ring).
    pose proof two_nz as T2. pose proof (y_nz _ _ OQ) as Hy2. cbn [asum].
    destruct (KD x12 x2) as [Ex|Ex].
    + rewrite Ex in *. destruct (KD (- (l * x2 + m) + - y2) 0) as [E0|E0].
      { exfalso. apply (mul_nz 2 y2 T2 Hy2). transitivity (- (- (l * x2 + m) + - y2)); [rewrite E2; ring|rewrite E0; ring]. }
      rewrite <- E2. assert (Hy' : - y2 <> 0) by (intros Q0; apply Hy2; transitivity (- - y2); [ring|rewrite Q0; ring]).
      assert (S0 : (3 * x2 * x2 + a) / (2 * - y2) = - l).
      { rewrite Ea. unfold WeierId.e2. rewrite T, E2. rewrite E2 in Hy2, Hy'. field. auto. }
      unfold chord. rewrite S0. f_equal; [rewrite T; ring|]. rewrite E1, T, E2. ring.
    + pose proof (sub_nz _ _ Ex) as D. unfold chord.
      assert (S0 : (- y2 - - (l * x12 + m)) / (x2 - x12) = - l) by (rewrite E2; field; exact D). rewrite S0. f_equal; [rewrite T; ring|]. rewrite E1, T. ring.
Qed.
Lemma cancel' P Q : aon P -> aon Q -> asum (asum P (aneg Q)) Q = P.
Proof. intros OP OQ. rewrite <- (aneg_aneg Q) at 2. apply cancel; [exact OP|apply aneg_on; exact OQ]. Qed.
Lemma asum_assoc P Q R : aon P -> aon Q -> aon R -> asum (asum P Q) R = asum P (asum Q R).
Proof.
  intros OP OQ OR. pose proof (asum_on _ _ OP OQ) as OPQ. pose proof (asum_on _ _ OQ OR) as OQR.
  destruct (opposite_dec P Q) as [E|E].
  { pose proof (opposite_neg _ _ E) as ->. rewrite asum_neg. cbn [asum]. rewrite (asum_comm (aneg P) R), (asum_comm P _); auto using aneg_on, asum_on. symmetry. apply cancel'; assumption. }
  destruct (opposite_dec Q R) as [E'|E'].
  { pose proof (opposite_neg _ _ E') as ->. rewrite asum_neg, asum_inf_r. apply cancel; assumption. }
  destruct (opposite_dec (asum P Q) R) as [E3|E3].
  { pose proof (opposite_neg _ _ E3) as ->. rewrite asum_neg. rewrite <- aneg_sum by assumption. rewrite (asum_comm Q), cancel' by auto using asum_on, aneg_on. symmetry. apply asum_neg. }
  destruct (opposite_dec P (asum Q R)) as [E4|E4].
  { pose proof (opposite_neg _ _ E4) as E5. assert (EP : P = aneg (asum Q R)) by (rewrite E5, aneg_aneg; reflexivity).
    rewrite EP at 2. rewrite (asum_comm (aneg _)), asum_neg by auto using aneg_on. rewrite EP. rewrite <- aneg_sum by assumption.
    rewrite (asum_comm (aneg Q) (aneg R)), cancel' by auto using aneg_on. rewrite asum_comm by auto using aneg_on. apply asum_neg. }
  destruct P as [|x1 y1]; [reflexivity|]. destruct R as [|x3 y3]; [rewrite !asum_inf_r; reflexivity|]. destruct Q as [|x2 y2]; [reflexivity|].
  destruct (line _ _ _ _ OP OQ E) as [l [m [F1 [F2 [Fa Fs]]]]]. destruct (line _ _ _ _ OQ OR E') as [k [n [G1 [G2 [Ga Gs]]]]].
  destruct (KD (l - k) 0) as [Ek|Ek].
  { (* one line: R = P or R = -(P+Q) *)
    assert (k = l) by (transitivity (l - (l - k)); [ring|rewrite Ek; ring]). subst k. assert (n = m) by (transitivity (l * x2 + n - l * x2); [ring|rewrite <- G1, F2; ring]). subst n.
    assert (Z0 : (x3 - x1) * (x3 - third l x1 x2) = 0).
    { transitivity (e2 x1 x2 (third l x1 x2) + 2 * l * m - (e2 x2 x3 (third l x2 x3) + 2 * l * m)); [unfold WeierId.e2, WeierId.third; ring|]. rewrite <- Fa, <- Ga. ring. }
    destruct (KI _ _ Z0) as [Z1|Z1].
    - assert (x3 = x1) by (transitivity (x3 - x1 + x1); [ring|rewrite Z1; ring]). replace (AAff x3 y3) with (AAff x1 y1) by congruence.
      rewrite (asum_comm (AAff x2 y2) (AAff x1 y1)) by assumption. apply asum_comm; assumption.
    - exfalso. apply E3. rewrite Fs. cbn. split; [transitivity (x3 - (x3 - third l x1 x2)); [ring|rewrite Z1; ring]|].
      assert (x3 = third l x1 x2) by (transitivity (x3 - third l x1 x2 + third l x1 x2); [ring|rewrite Z1; ring]). rewrite G2, H. ring. }
  rewrite Fs, Gs in *. destruct (asum_slope _ _ _ _ OPQ OR E3) as [c1 [C1 S1]]. 
  assert (E4' : ~ opposite (AAff (third k x2 x3) (- (k * third k x2 x3 + n))) (AAff x1 y1)).
  { intros [A1 A2]. apply E4. cbn. split; [symmetry; exact A1|rewrite <- A2; ring]. }
  rewrite (asum_comm (AAff x1 y1)) by assumption.
  destruct (asum_slope _ _ _ _ OQR OP E4') as [c2 [C2 S2]]. cbv zeta in S1, S2. rewrite S1, S2. unfold slope in *. rewrite Fa. clear S1 S2.
  rewrite F1, G2 in *. clear Fs Gs OPQ OQR OP OQ OR E E' E3 E4 E4'.
  assert (Hn : k * x2 + n = l * x2 + m) by (rewrite <- F2, <- G1; reflexivity).
  assert (Hae : e2 x1 x2 (third l x1 x2) + 2 * l * m = e2 x2 x3 (third k x2 x3) + 2 * k * n) by (rewrite <- Fa, <- Ga; reflexivity).
  pose proof two_nz as T2. pose proof (KI) as FI.
  destruct c1, c2.
  - destruct (assoc_tt K 0 1 kadd kmul ksub kopp kdiv kinv KF T2 x1 x2 x3 l k m n Ek Hn Hae C1 C2) as [A1 A2]. unfold s1, s2 in *. f_equal; [exact A1|]. rewrite <- A1. exact A2.
  - destruct (assoc_tf K 0 1 kadd kmul ksub kopp kdiv kinv KF T2 x1 x2 x3 l k m n Ek Hn Hae C1 C2) as [A1 A2]. unfold s1, s2 in *. f_equal; [exact A1|]. rewrite <- A1. exact A2.
  - destruct (assoc_ft K 0 1 kadd kmul ksub kopp kdiv kinv KF T2 x1 x2 x3 l k m n Ek Hn Hae C1 C2) as [A1 A2]. unfold s1, s2 in *. f_equal; [exact A1|]. rewrite <- A1. exact A2.
  - destruct (assoc_ff K 0 1 kadd kmul ksub kopp kdiv kinv KF T2 x1 x2 x3 l k m n Ek Hn Hae C1 C2) as [A1 A2]. unfold s1, s2 in *. f_equal; [exact A1|]. rewrite <- A1. exact A2.
Qed.

(** doubling formulas agree with addition on curve points *)
Lemma krcb_dbl_z P A : aon A -> kden P A -> let '(X1, Y1, Z1) := P in let '(X3, Y3, Z3) := krcb P P in Z3 = 8 * Y1 * Y1 * Y1 * Z1.
Proof.
  destruct P as [[X1 Y1] Z1], A as [|x y]; intros O HA; cbn [krcb].
  - destruct HA as [-> [-> _]]. ring.
  - destruct HA as [_ [-> ->]]. rewrite (solve_b _ _ O). ring.
Qed.
Lemma krcb_dbl_0 P A : a = 0 -> aon A -> kden P A -> let '(X1, Y1, Z1) := P in
  krcb P P = (2 * X1 * Y1 * (Y1 * Y1 - 3 * 3 * b * Z1 * Z1), (Y1 * Y1 - 3 * 3 * b * Z1 * Z1) * (Y1 * Y1 + 3 * b * Z1 * Z1) + 8 * 3 * b * Y1 * Y1 * Z1 * Z1, 8 * Y1 * Y1 * Y1 * Z1).
Proof.
  intros Ea O HA. pose proof (krcb_dbl_z P A O HA) as HZ. destruct P as [[X1 Y1] Z1], A as [|x y]; cbn [krcb] in *.
  - destruct HA as [-> [-> _]]. rewrite Ea. f_equal; [f_equal; ring|ring].
  - destruct HA as [_ [-> ->]]. rewrite HZ. rewrite (solve_b _ _ O). rewrite Ea. f_equal; f_equal; ring.
Qed.
End W.
