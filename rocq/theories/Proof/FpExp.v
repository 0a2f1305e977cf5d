(** Exponentiation, inversion and square roots of fp.rs. *)
From Verif Require Import Base.Word Model.Big Model.Roms Model.Fp Spec.BigSpec Spec.RomSpec Spec.FpSpec Spec.Bytes
  Proof.BigVal Proof.BigShift Proof.BigBytes Proof.BigMul Proof.BigSqr Proof.BigMonty Proof.BigMod Proof.BigInv Proof.BigMisc Proof.BigInv2m Proof.NumTheory Proof.FpBase Proof.FpRed Proof.FpOps Proof.FpPow.
From Coq Require Import Psatz Zpow_facts Znumtheory.

(** ** the addition chain respects any relation preserved by squaring and multiplication *)
Section Rel.
Variable r : rom.
Context {A : Type}.
Variables (sq : A -> option A) (mu : A -> A -> option A) (Rl : A -> Z -> Prop).
Hypothesis Hsq : forall a e, Rl a e -> 0 <= e -> exists b, sq a = Some b /\ Rl b (2 * e).
Hypothesis Hmu : forall a b e e', Rl a e -> Rl b e' -> 0 <= e -> 0 <= e' -> exists x, mu a b = Some x /\ Rl x (e + e').
Notation sqZ := (fun e => Some (2 * e)).
Notation muZ := (fun a b => Some (a + b)).
Definition RN (a : A) (e : Z) : Prop := Rl a e /\ 0 <= e.
Lemma sqN a e : RN a e -> exists b, sq a = Some b /\ RN b (2 * e).
Proof. intros [H1 H2]. destruct (Hsq a e H1 H2) as [b [E1 E2]]. exists b. split; [exact E1|]. split; [exact E2|lia]. Qed.
Lemma muN a b e e' : RN a e -> RN b e' -> exists x, mu a b = Some x /\ RN x (e + e').
Proof. intros [H1 H2] [H3 H4]. destruct (Hmu a b e e' H1 H3 H2 H4) as [x [E1 E2]]. exists x. split; [exact E1|]. split; [exact E2|lia]. Qed.

Lemma nth_rel l lz i z : Forall2 RN l lz -> nth_error lz i = Some z -> exists y, nth_error l i = Some y /\ RN y z.
Proof.
  intros H. revert i. induction H as [|y z' l lz Hy H IH]; intros i Hi; [destruct i; discriminate|].
  destruct i as [|i]; cbn in Hi |- *; [inv Hi; eexists; split; [reflexivity|exact Hy]|]. apply IH. exact Hi.
Qed.
Lemma sqn_rel n : forall a e e', RN a e -> sqn sqZ n e = Some e' -> exists b, sqn sq n a = Some b /\ RN b e'.
Proof.
  induction n as [|n IH]; intros a e e' H He; cbn [sqn bind] in *; [inv He; eauto|].
  destruct (sqN a e H) as [b [E1 E2]]. rewrite E1. cbn [bind]. eapply IH; eassumption.
Qed.
Ltac bz H := match type of H with bind ?e _ = Some _ => let v := fresh "z" in let E := fresh "Ez" in destruct e as [v|] eqn:E; cbn [bind] in H; [|discriminate] end.
Lemma chain1_rel a e le : RN a e -> chain1 sqZ muZ e = Some le -> exists l, chain1 sq mu a = Some l /\ Forall2 RN l le.
Proof.
  intros H He. unfold chain1 in *. cbn [bind] in He. inv He.
  repeat match goal with
  | |- context [bind (sq ?a)] => let b := fresh "b" in let E := fresh "E" in let G := fresh "G" in
      match goal with K : RN a _ |- _ => destruct (sqN _ _ K) as [b [E G]] end; rewrite E; cbn [bind]
  | |- context [bind (mu ?a ?b')] => let b := fresh "b" in let E := fresh "E" in let G := fresh "G" in
      match goal with K : RN a _, K' : RN b' _ |- _ => destruct (muN _ _ _ _ K K') as [b [E G]] end; rewrite E; cbn [bind]
  end.
  eexists. split; [reflexivity|]. repeat (constructor; [eassumption|]). constructor.
Qed.
Lemma key_loop_rel i : forall l le y e k z, Forall2 RN l le -> RN y e -> key_loop muZ i le e k = Some z ->
  exists x, key_loop mu i l y k = Some x /\ RN x z.
Proof.
  induction i as [|i IH]; intros l le y e k z Hl Hy He; cbn [key_loop] in *; destruct (k =? 0); try discriminate; try (inv He; eauto; fail).
  destruct (k <? nth i ac 0); [eapply IH; eassumption|]. bz He.
  destruct (nth_rel l le i z0 Hl Ez) as [y' [E1 E2]]. rewrite E1. cbn [bind].
  destruct (muN _ _ _ _ Hy E2) as [k' [E3 E4]]. rewrite E3. cbn [bind]. eapply IH; eassumption.
Qed.
Lemma chain2_rel f : forall m nw tops topz m' tz, Forall2 RN tops topz -> chain2 sqZ muZ f m nw topz = Some (m', tz) ->
  exists t, chain2 sq mu f m nw tops = Some (m', t) /\ Forall2 RN t tz.
Proof.
  induction f as [|f IH]; intros m nw tops topz m' tz H He; cbn [chain2] in *; destruct (2 * m <? nw); try discriminate; try (inv He; eauto; fail).
  destruct H as [|y z ts tzs Hy H]; [discriminate|]. bz He.
  destruct (sqn_rel _ _ _ _ Hy Ez) as [b [E1 E2]]. rewrite E1. cbn [bind].
  destruct (muN _ _ _ _ Hy E2) as [x [E3 E4]]. rewrite E3. cbn [bind]. eapply IH; [|eassumption]. constructor; [exact E4|]. constructor; assumption.
Qed.
Lemma chain3_rel f : forall m lo tops topz y e z, Forall2 RN tops topz -> RN y e -> chain3 sqZ muZ f m lo topz e = Some z ->
  exists x, chain3 sq mu f m lo tops y = Some x /\ RN x z.
Proof.
  induction f as [|f IH]; intros m lo tops topz y e z H Hy He; cbn [chain3] in *; destruct (lo =? 0); try discriminate; try (inv He; eauto; fail).
  destruct H as [|t tz ts tzs Ht H]; [discriminate|]. cbv zeta in *. destruct (lo <? m / 2); [eapply IH; eassumption|]. bz He.
  destruct (sqn_rel _ _ _ _ Hy Ez) as [b [E1 E2]]. rewrite E1. cbn [bind].
  destruct (muN _ _ _ _ E2 Ht) as [x [E3 E4]]. rewrite E3. cbn [bind]. eapply IH; eassumption.
Qed.
Lemma fpow_rel a e E : RN a e -> fpow_gen r sqZ muZ e = Some E -> exists y, fpow_gen r sq mu a = Some y /\ RN y E.
Proof.
  intros H He. unfold fpow_gen in *. bz He. destruct (chain1_rel a e z H Ez) as [xp [E1 E2]]. rewrite E1. cbn [bind].
  cbv zeta in *. bz He. rewrite Ez0 || idtac. cbn [bind].
  set (k := fst z0 - _) in *.
  destruct (if k =? 0 then Some None else _) as [key|] eqn:Ek in He; cbn [bind] in He; [|discriminate].
  assert (G : exists key', (if k =? 0 then Some None
          else i <- key_first 10 k ;; y <- nth_error xp i ;; z <- key_loop mu i xp y (k - nth i ac 0) ;; Some (Some z)) = Some key'
     /\ match key', key with Some x, Some z => RN x z | None, None => True | _, _ => False end).
  { destruct (k =? 0); [inv Ek; exists None; auto|]. bz Ek. cbn [bind]. bz Ek. destruct (nth_rel _ _ _ _ E2 Ez2) as [y [Y1 Y2]]. rewrite Y1. cbn [bind].
    bz Ek. inv Ek. destruct (key_loop_rel _ _ _ _ _ _ _ E2 Y2 Ez3) as [x [X1 X2]]. rewrite X1. cbn [bind]. exists (Some x). auto. }
  destruct G as [key' [G1 G2]]. rewrite G1. cbn [bind]. clear G1 Ek.
  bz He. destruct (nth_rel _ _ _ _ E2 Ez1) as [y3 [Y1 Y2]]. rewrite Y1. cbn [bind].
  bz He. destruct (nth_rel _ _ _ _ E2 Ez2) as [y15 [Y3 Y4]]. rewrite Y3. cbn [bind].
  bz He. destruct (nth_rel _ _ _ _ E2 Ez3) as [y255 [Y5 Y6]]. rewrite Y5. cbn [bind].
  bz He. destruct z4 as [m' tz].
  destruct (chain2_rel _ _ _ [y255; y15; y3; a] _ _ _ ltac:(repeat (constructor; [eassumption|]); constructor) Ez4) as [t [T1 T2]]. rewrite T1. cbn [bind fst snd] in *.
  destruct T2 as [|t tz ts tzs Ht T2]; [discriminate|].
  bz He. destruct (chain3_rel _ _ _ _ _ _ _ _ T2 Ht Ez5) as [x [X1 X2]]. rewrite X1. cbn [bind].
  set (bw := snd z0) in *.
  match type of He with bind ?ee _ = _ => destruct ee as [z5|] eqn:Ek; cbn [bind] in He; [|discriminate] end.
  assert (G : exists x', (if Nat.eqb bw 0 then Some x else s <- sqn sq bw x ;; match key' with Some y => mu s y | None => None end) = Some x' /\ RN x' z5).
  { destruct (Nat.eqb bw 0); [inv Ek; eauto|]. bz Ek. destruct (sqn_rel _ _ _ _ X2 Ez6) as [s [S1 S2]]. rewrite S1. cbn [bind].
    destruct key as [kz|], key' as [ky|]; try contradiction; try discriminate. inv Ek. apply muN; assumption. }
  destruct G as [x' [G3 G4]]. rewrite G3. cbn [bind]. clear G3 Ek.
  destruct (r_MODTYPE r); try (inv He; eauto; fail).
  cbn [bind] in He. bz He. inv He.
  destruct (sqN _ _ G4) as [s [S1 S2]]. rewrite S1. cbn [bind]. destruct (muN _ _ _ _ S2 H) as [s2 [S3 S4]]. rewrite S3. cbn [bind].
  destruct (sqn_rel _ _ _ _ S4 Ez6) as [s3 [S5 S6]]. rewrite S5. cbn [bind]. apply muN; assumption.
Qed.
End Rel.

Lemma powpow u a b : 0 <= a -> 0 <= b -> u ^ a * u ^ b = u ^ (a + b).
Proof. intros. symmetry. apply Z.pow_add_r; assumption. Qed.
Section Fp.
Variable r : rom.
Hypothesis Hf : fp_ok r.
Notation c := (r_cfg r).
Notation B := (BASEBITS (r_cfg r)).
Notation C := (CHUNK (r_cfg r)).
Notation N := (NLEN (r_cfg r)).
Notation X := (2 ^ BASEBITS (r_cfg r)).
Notation V := (val (BASEBITS (r_cfg r))).
Notation p := (pmod r).
Notation R := (bmax (r_cfg r)).
Notation SH := (2 ^ r_SH r).
Let FF := fp_ok_facts r Hf.
Let Hok : cfg_ok c. Proof. exact (ff_ok r FF). Qed.
Let F := cfg_ok_facts c Hok.
Let HB16 : 16 <= B. Proof. exact (cf_B c F). Qed.
Let HC : B + 3 <= C. Proof. exact (cf_C c F). Qed.
Let HN2 : (2 <= N)%nat. Proof. exact (cf_N c F). Qed.
Let HX : 65536 <= X.
Proof. change 65536 with (2 ^ 16). apply pow2_le. lia. Qed.
Let HXC : 4 * X <= 2 ^ (C - 1).
Proof. change 4 with (2 ^ 2). rewrite <- Z.pow_add_r by lia. apply pow2_le. lia. Qed.
Let Hp : 2 ^ 199 <= p := p_big r Hf.
Let Hp0 : 0 < p := p_pos r Hf.
Let HSH : 32 <= SH := SH_pos r Hf.
Let HSp : SH * p < R := SHp_lt r Hf.
Let Hmg : 4 <= maxg r := maxg_ge r Hf.

(** ** products of elements whose excess stays below M *)
Section PowM.
Variable M : Z.
Hypothesis HM2 : 2 <= M.
Hypothesis HMM : MX r = FEXCESS r \/ M * M <= MX r.
Record repM (f : fp) (v : Z) : Prop := { rm_rep : fp_rep r 1 f v; rm_x : fxes f <= M }.
Lemma mulokM a b u v : repM a u -> repM b v -> mulok r a b.
Proof.
  intros [[[_ [_ [A _]]] _] A2] [[[_ [_ [B' _]]] _] B2]. destruct HMM as [H|H]; [left; exact H|right].
  assert (fxes a * fxes b <= M * M) by (apply Z.mul_le_mono_nonneg; lia). lia.
Qed.
Lemma mulM a b u v : repM a u -> repM b v -> exists f, fp_mul r a b = Some f /\ repM f (u * v).
Proof.
  intros HA HB. destruct (mul_rep r Hf a b u v (mulokM _ _ _ _ HA HB) (rm_rep _ _ HA) (rm_rep _ _ HB)) as [f [E1 [E2 E3]]].
  exists f. split; [exact E1|]. split; [exact E3|lia].
Qed.
Lemma sqrM a u : repM a u -> exists f, fp_sqr r a = Some f /\ repM f (u * u).
Proof.
  intros HA. destruct (sqr_rep r Hf a u (mulokM _ _ _ _ HA HA) (rm_rep _ _ HA)) as [f [E1 [E2 E3]]].
  exists f. split; [exact E1|]. split; [exact E3|lia].
Qed.
Lemma sqrP a u e e' : repM a (u ^ e) -> 0 <= e -> e' = 2 * e -> exists f, fp_sqr r a = Some f /\ repM f (u ^ e').
Proof.
  intros HA He Ee. destruct (sqrM a _ HA) as [f [E1 E2]]. exists f. split; [exact E1|]. assert (Q : u ^ e * u ^ e = u ^ e').
  { rewrite powpow by lia. f_equal. lia. } rewrite <- Q. exact E2.
Qed.
Lemma mulP a b u e1 e2 e' : repM a (u ^ e1) -> repM b (u ^ e2) -> 0 <= e1 -> 0 <= e2 -> e' = e1 + e2 -> exists f, fp_mul r a b = Some f /\ repM f (u ^ e').
Proof.
  intros HA HB H1 H2 Ee. destruct (mulM a b _ _ HA HB) as [f [E1 E2]]. exists f. split; [exact E1|]. assert (Q : u ^ e1 * u ^ e2 = u ^ e').
  { rewrite powpow by lia. f_equal. lia. } rewrite <- Q. exact E2.
Qed.
Lemma repM_cong f v v' : v mod p = v' mod p -> repM f v -> repM f v'.
Proof. intros H [A A2]. split; [eapply rep_cong; eassumption|exact A2]. Qed.

Lemma pow_table_rep n : forall last x u k, 0 <= k -> repM last (u ^ k) -> repM x u ->
  exists tb, pow_table r n last x = Some tb /\ length tb = n /\ forall i y, nth_error tb i = Some y -> repM y (u ^ (k + 1 + Z.of_nat i)).
Proof.
  induction n as [|n IH]; intros last x u k Hk HL Hx; cbn [pow_table].
  - exists []. split; [reflexivity|]. split; [reflexivity|]. intros i y Hy. destruct i; discriminate.
  - destruct (mulM last x _ _ HL Hx) as [y [E1 E2]]. rewrite E1. cbn [bind].
    assert (Ey : u ^ k * u = u ^ (k + 1)) by (rewrite Z.pow_add_r, Z.pow_1_r by lia; reflexivity). rewrite Ey in E2.
    destruct (IH y x u (k + 1) ltac:(lia) E2 Hx) as [tb [T1 [T2 T3]]]. rewrite T1. cbn [bind]. exists (y :: tb). split; [reflexivity|]. split; [cbn; lia|].
    intros [|i] z Hz; cbn in Hz.
    + inv Hz. rewrite Z.add_0_r. exact E2.
    + replace (k + 1 + Z.of_nat (S i)) with (k + 1 + 1 + Z.of_nat i) by lia. apply T3. exact Hz.
Qed.
(** value of a list of hex digits, most significant first *)
Definition hexfold (acc : Z) (ds : list Z) : Z := fold_left (fun a d => 16 * a + d) ds acc.
Lemma hexfold_cons e d ds : hexfold e (d :: ds) = hexfold (16 * e + d) ds.
Proof. reflexivity. Qed.
Lemma pow_loop_rep tb u : (forall d, 0 <= d < 16 -> exists y, nth_error tb (Z.to_nat d) = Some y /\ repM y (u ^ d)) ->
  forall ds acc e, Forall (fun d => 0 <= d < 16) ds -> 0 <= e -> repM acc (u ^ e) ->
  exists f, pow_loop r tb ds acc = Some f /\ repM f (u ^ hexfold e ds).
Proof.
  intros Htb ds. induction ds as [|d ds IH]; intros acc e Hd He HA; [exists acc; split; [reflexivity|exact HA]|]. cbn [pow_loop]. rewrite hexfold_cons.
  apply Forall_cons_iff in Hd. destruct Hd as [Hd Hds].
  assert (Q : 0 <= 2 * e /\ 0 <= 4 * e /\ 0 <= 8 * e /\ 0 <= 16 * e /\ 4 * e = 2 * (2 * e) /\ 8 * e = 2 * (4 * e) /\ 16 * e = 2 * (8 * e) /\ 0 <= 16 * e + d) by (clear - He Hd; lia).
  destruct Q as [Q1 [Q2 [Q3 [Q4 [Q5 [Q6 [Q7 Q8]]]]]]].
  destruct (sqrP acc u e (2 * e) HA He eq_refl) as [a1 [E1 A1]]. rewrite E1. cbn [bind].
  destruct (sqrP a1 u _ (4 * e) A1 Q1 Q5) as [a2 [E2 A2]]. rewrite E2. cbn [bind].
  destruct (sqrP a2 u _ (8 * e) A2 Q2 Q6) as [a3 [E3 A3]]. rewrite E3. cbn [bind].
  destruct (sqrP a3 u _ (16 * e) A3 Q3 Q7) as [a4 [E4 A4]]. rewrite E4. cbn [bind].
  destruct (Htb d Hd) as [y [Y1 Y2]]. rewrite Y1. cbn [bind].
  destruct (mulP a4 y u _ _ (16 * e + d) A4 Y2 Q4 (proj1 Hd) eq_refl) as [a5 [E5 A5]]. rewrite E5. cbn [bind].
  exact (IH a5 (16 * e + d) Hds Q8 A5).
Qed.
End PowM.

Lemma pow_digits_spec n : forall t, big_wf c t -> exists ds, pow_digits r n t = Some ds /\ length ds = n /\ Forall (fun d => 0 <= d < 16) ds
  /\ hexfold 0 (rev ds) = V t mod 16 ^ Z.of_nat n.
Proof.
  induction n as [|n IH]; intros t Ht; cbn [pow_digits].
  - exists []. cbn. rewrite Z.mod_1_r. auto.
  - unfold lastbits. rewrite (norm_wf c Hok t Ht). cbn [bind fst snd].
    assert (Hne : t <> []) by (intros E; destruct Ht as [Ht _]; rewrite E in Ht; cbn in Ht; lia).
    rewrite (get0_land c) by (first [exact Hne|lia]). change (2 ^ 4) with 16. set (d := V t mod 16).
    assert (Hd : 0 <= d < 16) by (apply Z.mod_pos_bound; lia).
    destruct (dec_spec c Hok t d Ht ltac:(lia)) as [t1 [D1 [D2 [D3 D4]]]]. rewrite D1. cbn [bind].
    pose proof (wf_range c Hok N t Ht) as Rt. change (cap c N) with R in Rt. pose proof (Z.mod_le (V t) 16 ltac:(lia) ltac:(lia)) as Hle. fold d in Hle.
    destruct (norm_to_wf c Hok 2 t1 ltac:(lia) ltac:(lia) D2) as [t2 [N1 [N2 N3]]].
    { eapply within_weaken; [exact D4|lia|lia]. } { rewrite D3. lia. }
    rewrite N1. cbn [bind].
    assert (Hne2 : t2 <> []) by (intros E; destruct N3 as [N3 _]; rewrite E in N3; cbn in N3; lia).
    destruct (fshr_canon c ltac:(lia) HC t2 4 ltac:(lia) (proj2 N3) Hne2) as [t3 [S1 [S2 [S3 S4]]]].
    rewrite S1. cbn [bind snd]. destruct (IH t3) as [ds [E1 [E2 [E3 E4]]]]. { split; [rewrite S4; exact (proj1 N3)|exact S3]. }
    rewrite E1. cbn [bind]. exists (d :: ds). split; [reflexivity|]. split; [cbn; lia|]. split; [constructor; assumption|].
    cbn [rev]. unfold hexfold in *. rewrite fold_left_app. cbn [fold_left]. rewrite E4, S2, N2, D3. change (2 ^ 4) with 16.
    assert (Eq : V t - d = 16 * (V t / 16)) by (unfold d; pose proof (Z.div_mod (V t) 16 ltac:(lia)); lia).
    assert (Eq2 : (V t - d) / 16 = V t / 16) by (rewrite Eq, (Z.mul_comm 16), Z.div_mul by lia; reflexivity). rewrite Eq2.
    rewrite Nat2Z.inj_succ, Z.pow_succ_r by lia.
    rewrite Z.rem_mul_r by (try apply Z.pow_pos_nonneg; lia). fold d. ring.
Qed.
Definition powok (f : fp) : Prop := MX r = FEXCESS r \/ fxes f * fxes f <= MX r.
Lemma pow_rep g f u e : 1 <= g <= maxg r -> powok f -> fp_rep r g f u -> big_wf c e ->
  exists f', fp_pow r f e = Some f' /\ fxes f' = 1 /\ fp_rep r 1 f' (u ^ bval c e).
Proof.
  intros Hg Hpo HA We. unfold fp_pow. destruct (norm_rep r Hf g f u Hg HA) as [x [E1 [E2 E3]]]. rewrite E1. cbn [bind].
  rewrite (norm_wf c Hok e We). cbn [bind].
  pose proof (nbits_spec c Hok e e (norm_wf c Hok e We) (proj2 We)) as Enb. rewrite Enb. cbn [bind].
  set (n := if V e =? 0 then 0 else Z.log2 (V e) + 1) in *. pose proof (wf_range c Hok N e We) as Re.
  assert (Hn : 0 <= n /\ V e < 2 ^ n).
  { unfold n. destruct (Z.eqb_spec (V e) 0) as [E|E]; [rewrite E; cbn; lia|]. pose proof (Z.log2_nonneg (V e)). pose proof (Z.log2_spec (V e) ltac:(lia)). rewrite Z.add_1_r. lia. }
  set (nb := Z.to_nat (1 + (n + 3) / 4)).
  assert (Hnb : Z.of_nat nb = 1 + (n + 3) / 4). { unfold nb. rewrite Z2Nat.id; [reflexivity|]. pose proof (Z.div_pos (n + 3) 4 ltac:(lia) ltac:(lia)). lia. }
  destruct (pow_digits_spec nb e We) as [ds [D1 [D2 [D3 D4]]]]. rewrite D1. cbn [bind].
  destruct (one_rep r Hf) as [one [O1 [O2 O3]]]. rewrite O1. cbn [bind].
  pose proof E3 as [[_ [_ [Xe _]]] _].
  set (M := Z.max 2 (fxes f)).
  assert (HM2 : 2 <= M) by lia.
  assert (HMM : MX r = FEXCESS r \/ M * M <= MX r).
  { destruct Hpo as [H|H]; [left; exact H|right]. unfold M. destruct (Z.max_spec 2 (fxes f)) as [[_ ->]|[_ ->]]; [exact H|]. pose proof (MX_ge r Hf). lia. }
  assert (Rx : repM M x u) by (split; [exact E3|lia]).
  destruct (pow_table_rep M HM2 HMM 14 x x u 1 ltac:(lia)) as [tl [T1 [T2 T3]]]; [rewrite Z.pow_1_r; exact Rx|exact Rx|].
  rewrite T1. cbn [bind].
  assert (Htb : forall d, 0 <= d < 16 -> exists y, nth_error (one :: x :: tl) (Z.to_nat d) = Some y /\ repM M y (u ^ d)).
  { intros d Hd. destruct (Z.eq_dec d 0) as [->|H0]; [exists one; split; [reflexivity|split; [exact O3|lia]]|].
    destruct (Z.eq_dec d 1) as [->|H1]; [exists x; split; [reflexivity|rewrite Z.pow_1_r; exact Rx]|].
    replace (Z.to_nat d) with (S (S (Z.to_nat (d - 2)))) by lia. cbn [nth_error].
    destruct (nth_error tl (Z.to_nat (d - 2))) as [y|] eqn:En; [|apply nth_error_None in En; lia].
    exists y. split; [reflexivity|]. pose proof (T3 _ _ En) as Q. replace (1 + 1 + Z.of_nat (Z.to_nat (d - 2))) with d in Q by lia. exact Q. }
  assert (Hcap : V e mod 16 ^ Z.of_nat nb = V e).
  { apply Z.mod_small. split; [lia|]. change 16 with (2 ^ 4). rewrite <- Z.pow_mul_r by lia. eapply Z.lt_le_trans; [apply Hn|]. apply pow2_le.
    pose proof (Z.mul_div_le (n + 3) 4 ltac:(lia)). pose proof (Z.mod_pos_bound (n + 3) 4 ltac:(lia)). pose proof (Z.div_mod (n + 3) 4 ltac:(lia)). lia. }
  assert (Hr : Forall (fun d => 0 <= d < 16) (rev ds)) by (apply Forall_rev; exact D3).
  assert (Hlen : (1 <= length (rev ds))%nat). { rewrite rev_length, D2. pose proof (Z.div_pos (n + 3) 4 ltac:(lia) ltac:(lia)). lia. }
  destruct (rev ds) as [|d rest]; [cbn in Hlen; lia|]. apply Forall_cons_iff in Hr. destruct Hr as [Hd Hrest].
  destruct (Htb d Hd) as [y [Y1 Y2]]. rewrite Y1. cbn [bind].
  destruct (pow_loop_rep M HM2 HMM _ u Htb rest y d Hrest ltac:(lia) Y2) as [a [L1 L2]]. rewrite L1. cbn [bind].
  assert (Ev : hexfold d rest = V e). { rewrite <- Hcap, <- D4. unfold hexfold. cbn [fold_left]. f_equal. }
  rewrite Ev in L2. destruct (reduce_rep r Hf 1 a _ ltac:(lia) (rm_rep _ _ _ L2)) as [f' [F1 [F2 [F3 _]]]]. exists f'. auto.
Qed.

(** ** the special-modulus power *)
Definition fpow_exp : option Z := fpow_gen r (fun e => Some (2 * e)) (fun a b => Some (a + b)) 1.
Lemma fpow_rep M f u E : 2 <= M -> (MX r = FEXCESS r \/ M * M <= MX r) -> repM M f u -> fpow_exp = Some E -> exists y, fp_fpow r f = Some y /\ repM M y (u ^ E).
Proof.
  intros HM2 HMM HA HE.
  destruct (fpow_rel r (fp_sqr r) (fp_mul r) (fun f e => repM M f (u ^ e))) with (a := f) (e := 1) (E := E) as [y [E1 [E2 E3]]].
  - intros a e Ha He. apply (sqrP M HM2 HMM a u e); auto.
  - intros a b e e' Ha Hb He He'. apply (mulP M HM2 HMM a b u e e'); auto.
  - split; [rewrite Z.pow_1_r; exact HA|lia].
  - exact HE.
  - exists y. auto.
Qed.
Definition fpow_ok : Prop := special r = true -> fpow_exp = Some (if r_MOD8 r =? 5 then (p - 5) / 8 else (p - 3) / 4).

(** ** inversion *)
Lemma p_shape : (r_MOD8 r = 5 /\ p = 8 * ((p - 5) / 8) + 5 \/ r_MOD8 r <> 5 /\ p = 4 * ((p - 3) / 4) + 3) /\ 0 <= (p - 5) / 8 /\ 0 <= (p - 3) / 4.
Proof.
  pose proof (ff_mod8 r FF) as [H1 H2]. change (bval c (r_MODULUS r)) with p in *.
  assert (100 < p). { assert (2 ^ 7 <= 2 ^ 199) by (apply pow2_le; lia). change (2 ^ 7) with 128 in *. lia. }
  split; [|split; apply Z.div_pos; lia].
  destruct (Z.eq_dec (r_MOD8 r) 5) as [E|E].
  - left. split; [exact E|]. apply H1 in E. pose proof (Z.div_mod p 8 ltac:(lia)). rewrite E in H0. rewrite H0 at 2.
    replace (8 * (p / 8) + 5 - 5) with (p / 8 * 8) by ring. rewrite Z.div_mul by lia. lia.
  - right. split; [exact E|]. assert (E4 : p mod 4 = 3). { destruct H2 as [H2|H2]; [apply H1 in H2; contradiction|exact H2]. }
    pose proof (Z.div_mod p 4 ltac:(lia)). rewrite E4 in H0. rewrite H0 at 2. replace (4 * (p / 4) + 3 - 3) with (p / 4 * 4) by ring. rewrite Z.div_mul by lia. lia.
Qed.
Lemma inverse_rep g f u : 1 <= g <= maxg r -> (special r = true -> g = 1) -> fpow_ok -> powok f -> fp_rep r g f u ->
  exists f', fp_inverse r f = Some f' /\ fp_rep r 1 f' (u ^ (p - 2)).
Proof.
  intros Hg Hg1 Hfp Hpo HA. unfold fp_inverse. pose proof p_shape as [Sh [P1 P2]]. destruct (special r) eqn:Es.
  - rewrite (Hg1 eq_refl) in HA. specialize (Hfp Es).
    pose proof HA as [[_ [_ [Xe _]]] _]. set (M := Z.max 2 (fxes f)). assert (HM2 : 2 <= M) by lia.
    assert (HMM : MX r = FEXCESS r \/ M * M <= MX r).
    { destruct Hpo as [H|H]; [left; exact H|right]. unfold M. destruct (Z.max_spec 2 (fxes f)) as [[_ ->]|[_ ->]]; [exact H|]. pose proof (MX_ge r Hf). lia. }
    assert (Rx : repM M f u) by (split; [exact HA|lia]).
    destruct (fpow_rep M f u _ HM2 HMM Rx Hfp) as [y [E1 E2]]. rewrite E1. cbn [bind].
    destruct (Z.eqb_spec (r_MOD8 r) 5) as [E5|E5].
    + destruct Sh as [[_ Sh]|[Sh _]]; [|contradiction]. set (k := (p - 5) / 8) in *.
      assert (Rx1 : repM M f (u ^ 1)) by (rewrite Z.pow_1_r; exact Rx).
      assert (Q : 0 <= 2 * k /\ 0 <= 4 * k /\ 0 <= 8 * k /\ 4 * k = 2 * (2 * k) /\ 8 * k = 2 * (4 * k) /\ p - 2 = 3 + 8 * k) by (clear - Sh P1; clearbody k; lia).
      destruct Q as [Q1 [Q2 [Q3 [Q4 [Q5 Q6]]]]]. clearbody k.
      destruct (sqrP M HM2 HMM f u 1 2 Rx1 Z.le_0_1 eq_refl) as [t [T1 T2]]. rewrite T1. cbn [bind].
      destruct (mulP M HM2 HMM f t u 1 2 3 Rx1 T2 Z.le_0_1 Z.le_0_2 eq_refl) as [s [S1 S2]]. rewrite S1. cbn [bind].
      destruct (sqrP M HM2 HMM y u k (2 * k) E2 P1 eq_refl) as [y1 [Y1 Y2]]. rewrite Y1. cbn [bind].
      destruct (sqrP M HM2 HMM y1 u _ (4 * k) Y2 Q1 Q4) as [y2 [Y3 Y4]]. rewrite Y3. cbn [bind].
      destruct (sqrP M HM2 HMM y2 u _ (8 * k) Y4 Q2 Q5) as [y3 [Y5 Y6]]. rewrite Y5. cbn [bind].
      destruct (mulP M HM2 HMM s y3 u _ _ (p - 2) S2 Y6 (ltac:(discriminate) : 0 <= 3) Q3 Q6) as [z [Z1 Z2]]. exists z. split; [exact Z1|exact (rm_rep _ _ _ Z2)].
    + destruct Sh as [[Sh _]|[_ Sh]]; [contradiction|]. set (k := (p - 3) / 4) in *.
      assert (Rx1 : repM M f (u ^ 1)) by (rewrite Z.pow_1_r; exact Rx).
      assert (Q : 0 <= 2 * k /\ 0 <= 4 * k /\ 4 * k = 2 * (2 * k) /\ p - 2 = 1 + 4 * k) by (clear - Sh P2; clearbody k; lia).
      destruct Q as [Q1 [Q2 [Q4 Q6]]]. clearbody k.
      destruct (sqrP M HM2 HMM y u k (2 * k) E2 P2 eq_refl) as [y1 [Y1 Y2]]. rewrite Y1. cbn [bind].
      destruct (sqrP M HM2 HMM y1 u _ (4 * k) Y2 Q1 Q4) as [y2 [Y3 Y4]]. rewrite Y3. cbn [bind].
      destruct (mulP M HM2 HMM f y2 u _ _ (p - 2) Rx1 Y4 Z.le_0_1 Q2 Q6) as [z [Z1 Z2]]. exists z. split; [exact Z1|exact (rm_rep _ _ _ Z2)].
  - destruct (dec_spec c Hok (r_MODULUS r) 2 (ff_wf r FF) ltac:(lia)) as [m [D1 [D2 [D3 D4]]]]. rewrite D1. cbn [bind]. change (V (r_MODULUS r)) with p in D3.
    destruct (norm_to_wf c Hok 2 m ltac:(lia) ltac:(lia) D2) as [m2 [N1 [N2 N3]]].
    { eapply within_weaken; [exact D4|lia|lia]. } { rewrite D3. assert (2 * p <= SH * p) by (apply Z.mul_le_mono_nonneg_r; lia). lia. }
    rewrite N1. cbn [bind]. destruct (pow_rep g f u m2 Hg Hpo HA N3) as [f' [E1 [E2 E3]]]. exists f'. split; [exact E1|]. unfold bval in E3. rewrite N2, D3 in E3. exact E3.
Qed.
End Fp.
