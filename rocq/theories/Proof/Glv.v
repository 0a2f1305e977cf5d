(** The endomorphism (x, y) -> (k x, y) of a curve y^2 = x^3 + b, k a primitive cube root of one, and what a group with such a map satisfies. *)
From Coq Require Import ZArith List Lia Znumtheory Ring Field Bool.
From Verif Require Import Proof.NumTheory Proof.FieldP Proof.Weier Proof.EcpMul Spec.CurveSpec.
Open Scope Z_scope.

Section Endo.
Variable p : Z.
Hypothesis Hp : prime p.
Hypothesis Hp3 : 3 < p.
Notation K := (F p).
Notation "0" := (f0 p) : F_scope.
Notation "1" := (f1 p) : F_scope.
Open Scope F_scope.
Add Field Kfield : (F_field p Hp).
Variables a b k : K.
Hypothesis Ha : a = 0.
Hypothesis Hno2 : forall x : K, x * x * x + a * x + b <> 0.
Hypothesis Hk : k * k + k + 1 = 0.
Notation "2" := (1 + 1) : F_scope.
Notation "3" := (1 + 1 + 1) : F_scope.
Definition phi (A : apt p) : apt p := match A with AInf _ => AInf p | AAff _ x y => AAff p (k * x) y end.
Lemma k3 : k * k * k = 1.
Proof. transitivity ((k - 1) * (k * k + k + 1) + 1); [ring|rewrite Hk; ring]. Qed.
Lemma k_nz : k <> 0.
Proof. intros E. apply (F_1_neq_0 (F_field p Hp)). rewrite <- k3, E. ring. Qed.
Lemma k_inj x y : k * x = k * y -> x = y.
Proof. intros H. transitivity ((k * k) * (k * x)); [transitivity ((k * k * k) * x); [rewrite k3; ring|ring]|]. rewrite H. transitivity ((k * k * k) * y); [ring|rewrite k3; ring]. Qed.
Lemma phi_on A : aon p a b A -> aon p a b (phi A).
Proof. destruct A as [|x y]; cbn; [auto|]. intros ->. rewrite Ha. transitivity ((k * k * k) * (x * x * x) + b); [rewrite k3; ring|ring]. Qed.
Lemma phi_chord x1 y1 x2 y2 s : phi (chord p x1 y1 x2 y2 s) = chord p (k * x1) y1 (k * x2) y2 (k * k * s).
Proof.
  unfold chord, phi. assert (E : (k * k * s) * (k * k * s) = k * (s * s)) by (transitivity ((k * k * k) * k * (s * s)); [ring|rewrite k3; ring]). rewrite E. f_equal; [ring|].
  transitivity ((k * k * k) * (s * (x1 - (s * s - x1 - x2))) - y1); [rewrite k3; ring|ring].
Qed.
Lemma phi_sum A B : aon p a b A -> aon p a b B -> asum p a (phi A) (phi B) = phi (asum p a A B).
Proof.
  destruct A as [|x1 y1], B as [|x2 y2]; try reflexivity. intros O1 O2. cbn [phi asum].
  destruct (F_dec p x1 x2) as [<-|Hx].
  - destruct (F_dec p (k * x1) (k * x1)) as [_|N]; [|congruence]. destruct (F_dec p (y1 + y2) 0) as [E|E]; [reflexivity|]. change (AAff p (k * x1) y1) with (phi (AAff p x1 y1)).
    rewrite phi_chord. f_equal. rewrite Ha. pose proof (two_nz p Hp Hp3). pose proof (y_nz p Hp a b Hno2 x1 y1 O1). field. split; assumption.
  - destruct (F_dec p (k * x1) (k * x2)) as [E|_]; [apply k_inj in E; contradiction|]. rewrite phi_chord. f_equal.
    pose proof (sub_nz p Hp _ _ Hx) as D. pose proof k_nz as N. assert (D' : k * x2 - k * x1 <> 0) by (intros E; assert (Q : k * (x2 - x1) = 0) by (rewrite <- E; ring); destruct (F_integral p Hp _ _ Q); contradiction).
    transitivity ((k * k * k) * (y2 - y1) / (k * x2 - k * x1)); [rewrite k3; field; exact D'|]. field. split; assumption.
Qed.
Lemma phi_neg A : phi (aneg p A) = aneg p (phi A). Proof. destruct A; reflexivity. Qed.
Lemma phi_three A : aon p a b A -> asum p a A (phi A) = aneg p (phi (phi A)).
Proof.
  destruct A as [|x y]; [reflexivity|]. intros O. cbn [phi asum aneg].
  assert (KK : k * k = - (k + 1)) by (transitivity (k * k + k + 1 - (k + 1)); [ring|rewrite Hk; ring]).
  assert (X2 : k * (k * x) = - x - k * x) by (transitivity ((k * k) * x); [ring|rewrite KK; ring]).
  pose proof (y_nz p Hp a b Hno2 x y O) as Y. pose proof (two_nz p Hp Hp3) as T.
  destruct (F_dec p x (k * x)) as [E|E].
  - destruct (F_dec p (y + y) 0) as [Q|_].
    { exfalso. assert (Q' : 2 * y = 0) by (rewrite <- Q; ring). destruct (F_integral p Hp _ _ Q'); contradiction. }
    assert (X0 : x = 0). { assert (Z3 : 3 * x = 0) by (transitivity (x + k * x + k * (k * x)); [rewrite <- !E; ring|rewrite X2; ring]). destruct (F_integral p Hp _ _ Z3) as [T3|]; [|assumption].
      exfalso. unfold f1, f0 in T3. rewrite <- !mk_add in T3 by exact Hp. apply mk_eq in T3. change (1 + 1 + 1)%Z with 3%Z in T3. rewrite Z.mod_small, Z.mod_0_l in T3 by lia. discriminate. }
    unfold chord. rewrite X2, X0, Ha. f_equal; field; split; assumption.
  - pose proof (sub_nz p Hp _ _ E) as D. unfold chord. rewrite X2. f_equal; field; exact D.
Qed.
End Endo.

Section Abs.
Variable G : Type.
Variables (g0 : G) (gadd : G -> G -> G) (gneg : G -> G) (on : G -> Prop).
Hypothesis HG : cgroup G g0 gadd gneg on.
Notation zt := (ztimes G g0 gadd gneg).
Variable ph : G -> G.
Hypothesis ph_on : forall A, on A -> on (ph A).
Hypothesis ph_0 : ph g0 = g0.
Hypothesis ph_sum : forall A B, on A -> on B -> gadd (ph A) (ph B) = ph (gadd A B).
Hypothesis ph_neg : forall A, ph (gneg A) = gneg (ph A).
Hypothesis ph_three : forall A, on A -> gadd A (ph A) = gneg (ph (ph A)).
Let O0 := cg_0 _ _ _ _ _ HG. Let OA := cg_add _ _ _ _ _ HG. Let ON := cg_neg _ _ _ _ _ HG.
Let ZO : forall z A, on A -> on (zt z A). Proof. exact (ztimes_on _ _ _ _ _ HG). Qed.
Hint Resolve O0 OA ON ZO ph_on : core.
Lemma ph_times z A : on A -> ph (zt z A) = zt z (ph A).
Proof.
  intros H. assert (N : forall n, ph (ntimes G g0 gadd n A) = ntimes G g0 gadd n (ph A)).
  { induction n as [|n IH]; cbn [ntimes]; [exact ph_0|]. rewrite <- ph_sum, IH; auto. apply (ntimes_on _ _ _ _ _ HG). exact H. }
  unfold ztimes. destruct (z <? 0); [rewrite ph_neg|]; rewrite N; reflexivity.
Qed.
Lemma zt_zero z : zt z g0 = g0.
Proof. transitivity (zt z (zt 0 g0)); [reflexivity|]. rewrite (ztimes_mul _ _ _ _ _ HG), Z.mul_0_r by exact O0. reflexivity. Qed.
(** A = m ph(A) forces (1 + m + m^2) A = 0 *)
Lemma endo_sound A m : on A -> gadd A (gneg (zt m (ph A))) = g0 -> zt (1 + m + m * m) A = g0.
Proof.
  intros H E. assert (E1 : A = zt m (ph A)).
  { pose proof (neg_uniq _ _ _ _ _ HG A _ H (ON _ (ZO m _ (ph_on _ H))) E) as Q. transitivity (gneg (gneg A)); [symmetry; exact (neg_neg _ _ _ _ _ HG A H)|]. rewrite <- Q. exact (neg_neg _ _ _ _ _ HG _ (ZO m _ (ph_on _ H))). }
  assert (E2 : ph (ph A) = gneg (gadd A (ph A))) by (rewrite ph_three, (neg_neg _ _ _ _ _ HG) by auto; reflexivity).
  assert (E3 : ph A = zt m (ph (ph A))) by (rewrite <- (ph_times m (ph A)) by auto; f_equal; exact E1).
  assert (E4 : ph A = gneg (zt (m + 1) A)).
  { rewrite E3, E2. transitivity (zt m (zt (-1) (gadd A (ph A)))).
    - f_equal. change (-1) with (- (1)). rewrite (ztimes_opp _ _ _ _ _ HG), (ztimes_1 _ _ _ _ _ HG) by auto. reflexivity.
    - rewrite (ztimes_mul _ _ _ _ _ HG) by auto. replace (m * -1) with (- m) by ring. rewrite (ztimes_opp _ _ _ _ _ HG), (ztimes_sum _ _ _ _ _ HG), <- E1, (ztimes_add _ _ _ _ _ HG), (ztimes_1 _ _ _ _ _ HG) by auto. reflexivity. }
  replace (1 + m + m * m) with (1 + m * (m + 1)) by ring. rewrite (ztimes_add _ _ _ _ _ HG), <- (ztimes_mul _ _ _ _ _ HG), (ztimes_1 _ _ _ _ _ HG) by auto.
  rewrite E1 at 1. rewrite E4, <- (ztimes_opp _ _ _ _ _ HG), !(ztimes_mul _ _ _ _ _ HG), <- (ztimes_add _ _ _ _ _ HG) by auto.
  replace (m * - (m + 1) + m * (m + 1)) with 0 by ring. reflexivity.
Qed.
(** on the multiples of a point g with ph(g) = -l g: ph acts as -l, and 1 - l + l^2 kills *)
Variables (g : G) (l : Z).
Hypothesis Og : on g.
Hypothesis Eg : ph g = zt (- l) g.
Lemma eigen n A : A = zt n g -> ph A = zt (- l) A.
Proof. intros ->. rewrite ph_times, Eg, !(ztimes_mul _ _ _ _ _ HG) by exact Og. f_equal. ring. Qed.
Lemma eigen_order : zt (1 - l + l * l) g = g0.
Proof.
  pose proof (ph_three g Og) as E. rewrite Eg in E. rewrite (ph_times (- l) g Og), Eg, (ztimes_mul _ _ _ _ _ HG) in E by exact Og.
  replace (1 - l + l * l) with (1 + - l + - l * - l) by ring. rewrite !(ztimes_add _ _ _ _ _ HG), (ztimes_1 _ _ _ _ _ HG), E by exact Og. apply (inv_l _ _ _ _ _ HG). auto.
Qed.
Lemma kill n A q k : zt q g = g0 -> A = zt n g -> zt (k * q) A = g0.
Proof.
  intros Q ->. rewrite (ztimes_mul _ _ _ _ _ HG) by exact Og. replace (k * q * n) with (k * n * q) by ring. rewrite <- (ztimes_mul _ _ _ _ _ HG), Q by exact Og. apply zt_zero.
Qed.
Lemma glv_sum n A q e u0 u1 d : zt q g = g0 -> A = zt n g -> u0 - u1 * l = e + d * q -> gadd (zt u0 A) (zt u1 (ph A)) = zt e A.
Proof.
  intros Q EA E. assert (OAA : on A) by (rewrite EA; auto). rewrite (eigen n A EA), (ztimes_mul _ _ _ _ _ HG), <- (ztimes_add _ _ _ _ _ HG) by exact OAA.
  replace (u0 + u1 * - l) with (e + d * q) by lia. rewrite (ztimes_add _ _ _ _ _ HG), (kill n A q d Q EA), (id_r _ _ _ _ _ HG) by auto. reflexivity.
Qed.
End Abs.
