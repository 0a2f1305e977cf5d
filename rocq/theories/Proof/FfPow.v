(** Exponentiation of FFs: the ladder of skpow and the binary method of power. *)
From Verif Require Import Base.Word Model.Big Model.Ff Spec.BigSpec Spec.FfSpec Proof.BigVal Proof.BigShift
  Proof.BigMul Proof.BigSqr Proof.BigMisc Proof.BigMod Proof.BigBytes Proof.BigInv Proof.BigMonty Proof.FfBase Proof.FfLeaf Proof.FfMul Proof.FfRed Proof.FfMod Proof.FfMont.
From Verif Require Import Proof.NumTheory Proof.FpSqrt.
From Coq Require Import Znumtheory.
Open Scope Z_scope.

Definition bv (h : Z) (bs : list Z) : Z := fold_left (fun a b => 2 * a + b) bs h.
Lemma bv_ge h bs : 0 <= h -> Forall (fun b => b = 0 \/ b = 1) bs -> 0 <= bv h bs.
Proof. intros Hh H. revert h Hh. induction H as [|b bs Hb Hs IH]; intros h Hh; [exact Hh|]. cbn [bv fold_left]. fold (bv (2 * h + b) bs). apply IH. lia. Qed.

Lemma pow_zero p a m : prime p -> 0 <= m -> a ^ m mod p = 0 -> a mod p = 0.
Proof.
  intros Hp Hm. pattern m. apply natlike_ind; [| |exact Hm].
  - rewrite Z.pow_0_r. intros E. pose proof (prime_ge_2 p Hp). rewrite Z.mod_small in E; lia.
  - intros x Hx IH E. rewrite Z.pow_succ_r in E by lia. destruct (prime_mul_zero p _ _ Hp E); auto.
Qed.

Section F.
Variable c : cfg.
Hypothesis Hff : ff_ok c.
Notation B := (BASEBITS c).
Notation N := (NLEN c).
Notation V := (val (BASEBITS c)).
Notation R := (bigR c).
Notation FV := (fval c).
Notation cn := (cn c).
Notation nb := (nb c).
Notation tf := (tf c).
Notation SL := (SL c).
Let Hok := Hok c Hff.
Let PR := R_pos c Hff.
Let HS := S_big c Hff.
Let HC := fC c Hff.
Let HB16 := fB c Hff.
Let HN := fN c Hff.

Lemma ffcswap_ok a b d : length a = length b -> Forall (fun x => length x = N) a -> Forall (fun x => length x = N) b -> d = 0 \/ d = 1 ->
  ff_cswap c a b d = Some (if d =? 1 then (b, a) else (a, b)).
Proof.
  revert b. induction a as [|x a IH]; intros b L Ha Hb Hd; destruct b as [|y b]; try discriminate.
  - cbn [ff_cswap]. destruct (d =? 1); reflexivity.
  - cbn [ff_cswap]. apply Forall_cons_iff in Ha. apply Forall_cons_iff in Hb. destruct Ha as [Hx Ha], Hb as [Hy Hb].
    rewrite (cswap_spec c Hok x y d) by (auto; congruence). cbn [bind]. rewrite (IH b) by (auto; cbn in L; lia). cbn [bind]. destruct (d =? 1); reflexivity.
Qed.
Lemma tf_lens g f : tf g f -> Forall (fun x => length x = N) f.
Proof.
  intros [a [b [-> [Ha Hb]]]]. apply Forall_app; split; [|constructor; [apply Hb|constructor]].
  eapply Forall_impl; [|exact Ha]. intros x Hx. apply Hx.
Qed.

(** ** the bits of the exponent *)
Lemma testbit_fv e : Forall cn e -> forall i j, 0 <= j < 8 * MODBYTES c -> (i < length e)%nat ->
  Z.testbit (FV e) (8 * MODBYTES c * Z.of_nat i + j) = Z.testbit (V (nth i e [])) j.
Proof.
  induction 1 as [|x e Hx He IH]; intros i j Hj Hi; [cbn in Hi; lia|]. pose proof (cf_M c (cfg_ok_facts c Hok)) as HM.
  pose proof (canon_val B x ltac:(lia) (proj2 (proj1 Hx))) as Px. destruct Hx as [_ Lx]. cbn [fval]. unfold bval.
  destruct i as [|i].
  - cbn [nth]. change (Z.of_nat 0) with 0. rewrite Z.mul_0_r, Z.add_0_l.
    rewrite <- (Z.mod_pow2_bits_low (V x + R * FV e) (8 * MODBYTES c) j) by lia. fold (bigR c).
    rewrite (Z.mul_comm R), Z.mod_add, Z.mod_small by lia. reflexivity.
  - cbn [nth]. rewrite <- (IH i j Hj ltac:(cbn in Hi; lia)). rewrite Nat2Z.inj_succ.
    replace (8 * MODBYTES c * Z.succ (Z.of_nat i) + j) with (8 * MODBYTES c * Z.of_nat i + j + 8 * MODBYTES c) by ring.
    assert (Nn : 0 <= 8 * MODBYTES c * Z.of_nat i) by (apply Z.mul_nonneg_nonneg; lia).
    rewrite <- Z.div_pow2_bits by lia.
    fold (bigR c). rewrite (Z.mul_comm R), Z.div_add, Z.div_small by lia. reflexivity.
Qed.
Lemma ffbits_ok e : Forall cn e -> forall i, (i <= Z.to_nat (8 * MODBYTES c) * length e)%nat ->
  exists bs, ff_bits c e i = Some bs /\ length bs = i /\ Forall (fun b => b = 0 \/ b = 1) bs
    /\ forall h, bv h bs = h * 2 ^ Z.of_nat i + FV e mod 2 ^ Z.of_nat i.
Proof.
  intros He. pose proof (cf_M c (cfg_ok_facts c Hok)) as HM. induction i as [|i IH]; intros Hi.
  - exists []. split; [reflexivity|]. split; [reflexivity|]. split; [constructor|]. intros h. cbn. rewrite Z.mod_1_r. lia.
  - destruct IH as [bs [B1 [B2 [B3 B4]]]]; [lia|]. cbn [ff_bits]. unfold BIGBITS.
    set (M := 8 * MODBYTES c) in *. replace (MODBYTES c * 8) with M by (unfold M; lia).
    assert (PM : 0 < M) by (unfold M; lia).
    pose proof (Z.div_mod (Z.of_nat i) M ltac:(lia)) as D. pose proof (Z.mod_pos_bound (Z.of_nat i) M PM) as Mb.
    assert (Q0 : 0 <= Z.of_nat i / M) by (apply Z.div_pos; lia).
    assert (Q1 : Z.of_nat i / M < Z.of_nat (length e)). { apply Z.div_lt_upper_bound; [lia|]. assert (Z.of_nat i < Z.of_nat (Z.to_nat M * length e)) by lia. rewrite Nat2Z.inj_mul, Z2Nat.id in H by lia. lia. }
    rewrite (nth_error_nth' e [] (n := Z.to_nat (Z.of_nat i / M))) by lia. cbn [bind].
    assert (Hc : cn (nth (Z.to_nat (Z.of_nat i / M)) e [])). { apply Forall_nth; [exact He|lia]. }
    assert (MB : M <= B * Z.of_nat N). { pose proof (bits_eq c Hff) as E. fold M in E. pose proof (ffok c Hff) as [_ [T1 T2]]. lia. }
    rewrite (bit_spec c ltac:(lia) HC _ (Z.of_nat i mod M)); [|destruct Hc as [[L _] _]; rewrite L; lia|apply Hc]. cbn [bind]. rewrite B1. cbn [bind].
    pose proof (testbit_fv e He (Z.to_nat (Z.of_nat i / M)) (Z.of_nat i mod M) Mb ltac:(lia)) as Tb. fold M in Tb. rewrite Z2Nat.id, <- D in Tb by lia. rewrite <- Tb.
    eexists. split; [reflexivity|]. split; [cbn [length]; lia|]. split; [constructor; [destruct (Z.testbit _ _); auto|exact B3]|].
    intros h. cbn [bv fold_left]. fold (bv (2 * h + (if Z.testbit (FV e) (Z.of_nat i) then 1 else 0)) bs). rewrite B4.
    rewrite Nat2Z.inj_succ, Z.pow_succ_r by lia. rewrite (Z.mul_comm 2 (2 ^ _)), Z.rem_mul_r by (try lia; apply Z.pow_nonzero; lia).
    replace ((FV e / 2 ^ Z.of_nat i) mod 2) with (if Z.testbit (FV e) (Z.of_nat i) then 1 else 0); [ring|].
    rewrite Z.testbit_eqb by lia. pose proof (Z.mod_pos_bound (FV e / 2 ^ Z.of_nat i) 2 ltac:(lia)). destruct (Z.eqb_spec ((FV e / 2 ^ Z.of_nat i) mod 2) 1); lia.
Qed.
Lemma one_ok n : (1 <= n)%nat -> Forall cn (ff_one c n) /\ length (ff_one c n) = n /\ FV (ff_one c n) = 1.
Proof.
  intros Hn. destruct (zero_cn c Hff (n - 1)) as [Z1 [Z2 Z3]]. unfold ff_one. unfold ff_zero in *. pose proof (R_big c Hff).
  assert (O1 : cn (big_one c) /\ V (big_one c) = 1).
  { assert (Ez : forall m, V (repeat 0 m) = 0) by (induction m; cbn [repeat val]; lia).
    assert (Eo : V (big_one c) = 1) by (unfold big_one; cbn [val]; rewrite Ez; lia).
    split; [|exact Eo]. split; [|lia]. unfold big_one. split; [cbn [length]; rewrite repeat_length; lia|].
    pose proof (fX c Hff). constructor; [lia|]. apply Forall_forall. intros x Hx. apply repeat_spec in Hx. subst x. lia. }
  destruct O1 as [O1 O2]. split; [constructor; assumption|]. split; [cbn [length]; lia|]. cbn [fval]. unfold bval. rewrite O2, Z2. lia.
Qed.

Variables p nd : ff.
Variable k : nat.
Hypothesis Hk : (k <= 3)%nat.
Hypothesis Lp : length p = (2 ^ k)%nat.
Hypothesis Ln : length nd = (2 ^ k)%nat.
Hypothesis Hp : Forall cn p.
Hypothesis Hnd : pf c nd.
Notation n := (2 ^ k)%nat.
Notation P := (FV p).
Notation RN := (R ^ Z.of_nat (2 ^ k)).
Notation rho := (frad c (2 ^ k)).
Hypothesis Podd : P mod 2 = 1.
Hypothesis Inv : (P * FV nd) mod RN = 1.
Notation F := (FEXC c).
Notation stable := (stable c p k).
Let MM := modmul_ok c Hff p nd k Hk Lp Ln Hp Hnd Podd Inv.
Let MS := modsqr_ok c Hff p nd k Hk Lp Ln Hp Hnd Podd Inv.
Let PP := P_pos c Hff p nd k Hk Lp Ln Hp Podd.
Let FE := F_eq c Hff.
Let CA := cancel c Hff p nd k Hk Lp Ln Hp Podd.

(** r holds v in Montgomery form *)
Definition mrep (v : Z) (r : ff) : Prop := FV r mod P = (v * rho) mod P.
Lemma mrep_mul u v x y r : mrep u x -> mrep v y -> (FV r * rho) mod P = (FV x * FV y) mod P -> mrep (u * v) r.
Proof.
  unfold mrep. intros Hx Hy E. apply CA. rewrite E, Zmult_mod, Hx, Hy, <- Zmult_mod. f_equal. ring.
Qed.
Definition room (m : Z) : Prop := stable \/ 8 * (F + m + 3) <= 5 * SL.

Lemma rung_ok b r0 r1 g u v : b = 0 \/ b = 1 -> length r0 = n -> length r1 = n -> tf g r0 -> tf g r1 -> F <= g -> 8 * (g + 3) <= 5 * SL -> mrep u r0 -> mrep v r1 ->
  exists a0 a1, rung c p nd b r0 r1 = Some (a0, a1) /\ length a0 = n /\ length a1 = n /\ tf (g + 1) a0 /\ tf (g + 1) a1 /\ (stable -> g = F -> tf F a0 /\ tf F a1)
    /\ (if b =? 1 then mrep (u * v) a0 /\ mrep (v * v) a1 else mrep (u * u) a0 /\ mrep (u * v) a1)
    /\ (k = O -> FV r1 = 0 -> FV a1 = 0 /\ (FV r0 = 0 \/ b = 1 -> FV a0 = 0)).
Proof.
  intros Hb L0 L1 H0 H1 Gf G U W. unfold rung.
  destruct (MM r0 r1 g g L0 L1 H0 H1 ltac:(lia) ltac:(lia) G G) as [s [S1 [S2 [S3 [S4 [S5 S6]]]]]]. rewrite S1. cbn [bind].
  rewrite (ffcswap_ok r0 r1 b ltac:(lia) (tf_lens _ _ H0) (tf_lens _ _ H1) Hb). cbn [bind].
  assert (T1 : tf (g + 1) s) by (apply (tf_mono c Hff _ _ _ S3); lia). assert (Q1 : stable -> g = F -> tf F s) by (intros St E; apply (S4 St); lia).
  destruct Hb as [-> | ->]; cbn [Z.eqb Pos.eqb fst snd].
  - destruct (MS r0 g L0 H0 ltac:(lia) G) as [a [A1 [A2 [A3 [A4 A5]]]]]. rewrite A1. cbn [bind].
    rewrite (ffcswap_ok a s 0 ltac:(lia) (tf_lens _ _ A3) (tf_lens _ _ T1) ltac:(auto)). cbn [Z.eqb Pos.eqb]. exists a, s. split; [reflexivity|]. split; [exact A2|]. split; [exact S2|].
    split; [apply (tf_mono c Hff _ _ _ A3); lia|]. split; [exact T1|]. split; [auto|]. split; [split; [apply (mrep_mul _ _ _ _ _ U U A4)|apply (mrep_mul _ _ _ _ _ U W S5)]|].
    intros K0 Z1. split; [apply (S6 K0); auto|]. intros [Z0|]; [apply (A5 K0 Z0)|discriminate].
  - destruct (MS r1 g L1 H1 ltac:(lia) G) as [a [A1 [A2 [A3 [A4 A5]]]]]. rewrite A1. cbn [bind].
    rewrite (ffcswap_ok a s 1 ltac:(lia) (tf_lens _ _ A3) (tf_lens _ _ T1) ltac:(auto)). cbn [Z.eqb Pos.eqb]. exists s, a. split; [reflexivity|]. split; [exact S2|]. split; [exact A2|].
    split; [exact T1|]. split; [apply (tf_mono c Hff _ _ _ A3); lia|]. split; [auto|]. split; [split; [apply (mrep_mul _ _ _ _ _ U W S5)|apply (mrep_mul _ _ _ _ _ W W A4)]|].
    intros K0 Z1. split; [apply (A5 K0 Z1)|]. intros _. apply (S6 K0). auto.
Qed.
Lemma ladder_ok b bs : Forall (fun x => x = 0 \/ x = 1) bs -> forall r0 r1 g h, length r0 = n -> length r1 = n -> tf g r0 -> tf g r1 -> F <= g ->
  stable /\ g = F \/ 8 * (g + Z.of_nat (length bs) + 3) <= 5 * SL -> 0 <= h -> mrep (b ^ h) r0 -> mrep (b ^ (h + 1)) r1 ->
  exists a0 a1 g', ladder c p nd bs r0 r1 = Some (a0, a1) /\ length a0 = n /\ tf g' a0 /\ 1 <= g' <= SL /\ mrep (b ^ bv h bs) a0
    /\ (k = O -> FV r1 = 0 -> (FV r0 = 0 -> FV a0 = 0) /\ (Forall (eq 0) bs \/ FV a0 = 0)).
Proof.
  induction 1 as [|x bs Hx Hbs IH]; intros r0 r1 g h L0 L1 H0 H1 Gf G Hh U W.
  - cbn [ladder]. exists r0, r1, g. split; [reflexivity|]. split; [exact L0|]. split; [exact H0|]. split; [cbn [length] in G; lia|]. split; [exact U|]. intros. split; auto.
  - assert (G3 : 8 * (g + 3) <= 5 * SL) by (cbn [length] in G; lia).
    destruct (rung_ok x r0 r1 g _ _ Hx L0 L1 H0 H1 Gf G3 U W) as [a0 [a1 [A1 [A2 [A3 [A4 [A5 [A6 [A7 A8]]]]]]]]].
    cbn [ladder]. rewrite A1. cbn [bind fst snd]. cbn [bv fold_left]. fold (bv (2 * h + x) bs).
    assert (U' : mrep (b ^ (2 * h + x)) a0 /\ mrep (b ^ (2 * h + x + 1)) a1).
    { destruct Hx as [-> | ->]; cbn [Z.eqb Pos.eqb] in A7; destruct A7 as [B1 B2]; rewrite <- Z.pow_add_r in B1, B2 by lia.
      - replace (2 * h + 0) with (h + h) by lia. split; [exact B1|]. replace (h + h + 1) with (h + (h + 1)) by lia. exact B2.
      - replace (2 * h + 1) with (h + (h + 1)) by lia. split; [exact B1|]. replace (h + (h + 1) + 1) with (h + 1 + (h + 1)) by lia. exact B2. }
    destruct U' as [U' W'].
    assert (NX : exists g', tf g' a0 /\ tf g' a1 /\ F <= g' /\ (stable /\ g' = F \/ 8 * (g' + Z.of_nat (length bs) + 3) <= 5 * SL)).
    { destruct G as [[St Eg]|G]; [exists F; destruct (A6 St Eg); auto 6 with zarith|]. exists (g + 1). cbn [length] in G. split; [exact A4|]. split; [exact A5|]. split; [lia|right; lia]. }
    destruct NX as [g' [T0 [T1 [Gf' G']]]].
    assert (Hh' : 0 <= 2 * h + x) by (clear - Hh Hx; lia).
    destruct (IH a0 a1 g' (2 * h + x) A2 A3 T0 T1 Gf' G' Hh' U' W') as [c0 [c1 [gg [C1 [C2 [C3 [C4 [C5 C6]]]]]]]].
    exists c0, c1, gg. split; [exact C1|]. split; [exact C2|]. split; [exact C3|]. split; [exact C4|]. split; [exact C5|].
    intros K0 Z1. destruct (A8 K0 Z1) as [Z1' Z0']. destruct (C6 K0 Z1') as [D1 D2]. split; [auto|].
    destruct Hx as [-> | ->]; [destruct D2; [left; constructor; auto|auto]|]. right. apply D1. apply Z0'. auto.
Qed.
Lemma all0 bs h : Forall (eq 0) bs -> bv h bs = h * 2 ^ Z.of_nat (length bs).
Proof.
  intros H. revert h. induction H as [|x bs Hx Hb IH]; intros h; [cbn; lia|]. cbn [bv fold_left length]. fold (bv (2 * h + x) bs). rewrite IH, <- Hx, Nat2Z.inj_succ, Z.pow_succ_r by lia. ring.
Qed.

Lemma skpow_ok s e : ff_invmod2m c p = Some nd -> length s = n -> Forall cn s -> length e = n -> Forall cn e ->
  room (8 * MODBYTES c * Z.of_nat n) -> (k <> O \/ prime P) ->
  exists r, ff_skpow c s e p = Some r /\ length r = n /\ Forall cn r /\ FV r = FV s ^ FV e mod P.
Proof.
  intros En Ls Hs Le He Rm Pr. assert (Hn : (1 <= n)%nat) by apply pow2pos. pose proof (cf_M c (cfg_ok_facts c Hok)) as HM.
  unfold ff_skpow. rewrite En, Lp. cbn [bind].
  assert (Ts : tf 1 s) by (apply (cn_tf c Hff); [apply len_ne; lia|exact Hs]).
  destruct (rmod_x c Hff p nd k Hk Lp Ln Hp Podd 1 s Ts Ls ltac:(lia)) as [s1 [S1 [S2 [S3 S4]]]]. rewrite S1. cbn [bind].
  destruct (one_ok n Hn) as [O1 [O2 O3]].
  destruct (nres_ok c Hff p nd k Hk Lp Ln Hp Podd Inv (ff_one c n) O2 O1) as [r0 [A1 [A2 [A3 A4]]]]. rewrite A1. cbn [bind].
  destruct (nres_ok c Hff p nd k Hk Lp Ln Hp Podd Inv s1 S2 S3) as [r1 [B1 [B2 [B3 B4]]]]. rewrite B1. cbn [bind].
  destruct (ffbits_ok e He (Z.to_nat (8 * MODBYTES c) * n)%nat ltac:(rewrite Le; lia)) as [bs [C1 [C2 [C3 C4]]]]. rewrite C1. cbn [bind].
  assert (Tone : forall f, length f = n -> Forall cn f -> tf F f). { intros f Lf Hf. apply (tf_mono c Hff 1); [apply (cn_tf c Hff); [apply len_ne; lia|exact Hf]|lia]. }
  destruct (ladder_ok (FV s) bs C3 r0 r1 F 0 A2 B2 (Tone r0 A2 A3) (Tone r1 B2 B3) ltac:(lia)) as [a0 [a1 [g' [D1 [D2 [D3 [D4 [D5 D6]]]]]]]].
  { destruct Rm as [St|Q]; [left; auto|right]. rewrite C2, Nat2Z.inj_mul, Z2Nat.id by lia. exact Q. }
  { lia. }
  { unfold mrep. rewrite A4, O3, Z.mod_mod by lia. rewrite Z.pow_0_r. reflexivity. }
  { unfold mrep. rewrite B4, S4, Z.mod_mod by lia. rewrite Zmult_mod_idemp_l, Z.add_0_l, Z.pow_1_r. reflexivity. }
  rewrite D1. cbn [bind fst].
  destruct (redc_ok c Hff p nd k Hk Lp Ln Hp Hnd Podd Inv a0 g' D2 D3 D4) as [r [E1 [E2 [E3 [E4 [E5 [E6 E7]]]]]]].
  exists r. split; [exact E1|]. split; [exact E2|]. split; [exact E3|].
  assert (Ee : bv 0 bs = FV e).
  { rewrite C4, Z.mul_0_l, Z.add_0_l. apply Z.mod_small. pose proof (cn_range c Hff e He) as Re. rewrite Le in Re. rewrite (pow_R c Hff) in Re. unfold BIGBITS in Re.
    replace (8 * MODBYTES c) with (MODBYTES c * 8) by lia. exact Re. }
  unfold mrep in D5. rewrite D5 in E5. apply CA in E5. rewrite Ee in E5.
  destruct (Z.eq_dec (FV r) P) as [Q|Q]; [|rewrite <- E5; symmetry; apply Z.mod_small; lia].
  exfalso. destruct (Nat.eq_dec k 0) as [K0|K0]; [|specialize (E6 K0); clear - E6 Q; lia]. destruct Pr as [Pr|Pr]; [congruence|].
  rewrite Q, Z.mod_same in E5 by lia. symmetry in E5.
  assert (Pe : 0 <= FV e) by (apply (cn_range c Hff e He)).
  assert (Ze : FV s mod P = 0) by (apply (pow_zero P (FV s) (FV e)); assumption).
  assert (E0 : FV e <> 0). { intros Z0. rewrite Z0, Z.pow_0_r in E5. pose proof (prime_ge_2 _ Pr). rewrite Z.mod_small in E5; lia. }
  assert (Z1 : FV r1 = 0) by (rewrite B4, S4, Ze, Z.mul_0_l, Z.mod_0_l by lia; reflexivity).
  destruct (D6 K0 Z1) as [_ [Q0|Q0]].
  - apply (all0 bs 0) in Q0. rewrite Ee in Q0. lia.
  - specialize (E7 K0 Q0). lia.
Qed.

(** ** binary method with a small exponent (two or more Bigs) *)
Lemma odd_div e : 0 <= e -> e = 2 * (e / 2) + (if Z.rem e 2 =? 1 then 1 else 0).
Proof.
  intros He. rewrite Z.rem_mod_nonneg by lia. pose proof (Z.div_mod e 2 ltac:(lia)). pose proof (Z.mod_pos_bound e 2 ltac:(lia)). destruct (Z.eqb_spec (e mod 2) 1); lia.
Qed.
Lemma powloop_ok v : forall fuel ee o w a, 1 <= ee < 2 ^ Z.of_nat fuel -> length w = n -> tf F w -> mrep v w ->
  match o with None => a = 1 | Some s => length s = n /\ tf (F + 1) s /\ mrep a s end ->
  exists r, pow_loop fuel c p nd ee o w = Some (Some r) /\ length r = n /\ tf (F + 1) r /\ mrep (a * v ^ ee) r.
Proof.
  intros fuel. revert v. induction fuel as [|fuel IH]; intros v ee o w a He Lw Hw W Ho.
  - change (2 ^ Z.of_nat 0) with 1 in He. lia.
  - cbn [pow_loop]. rewrite Z.shiftr_div_pow2 by lia. change (2 ^ 1) with 2. pose proof (odd_div ee ltac:(lia)) as Od.
    rewrite Nat2Z.inj_succ, Z.pow_succ_r in He by lia.
    assert (Ha : exists o1 a1, (if Z.rem ee 2 =? 1 then match o with None => Some (Some w) | Some s => s1 <- ff_modmul c s w p nd ;; Some (Some s1) end else Some o) = Some o1
      /\ match o1 with None => a1 = 1 | Some s => length s = n /\ tf (F + 1) s /\ mrep a1 s end /\ a1 = a * v ^ (if Z.rem ee 2 =? 1 then 1 else 0) /\ (ee / 2 = 0 -> o1 <> None)).
    { destruct (Z.rem ee 2 =? 1) eqn:Er.
      - destruct o as [s|].
        + destruct Ho as [Ls [Hs As]]. destruct (MM s w (F + 1) F Ls Lw Hs Hw ltac:(lia) ltac:(lia) ltac:(lia) ltac:(lia)) as [s1 [M1 [M2 [M3 [_ [M5 _]]]]]]. rewrite M1. cbn [bind].
          exists (Some s1), (a * v ^ 1). split; [reflexivity|]. split; [|split; [reflexivity|discriminate]]. rewrite Z.max_r in M3 by lia. split; [exact M2|]. split; [exact M3|].
          rewrite Z.pow_1_r. apply (mrep_mul _ _ _ _ _ As W M5).
        + exists (Some w), (a * v ^ 1). split; [reflexivity|]. split; [|split; [reflexivity|discriminate]]. split; [exact Lw|]. split; [apply (tf_mono c Hff F); [exact Hw|lia]|]. rewrite Ho, Z.pow_1_r, Z.mul_1_l. exact W.
      - exists o, a. split; [reflexivity|]. split; [exact Ho|]. split; [rewrite Z.pow_0_r; ring|]. intros Z0. lia. }
    destruct Ha as [o1 [a1 [A1 [A2 [A3 A4]]]]].
    match goal with |- context [bind ?t _] => replace t with (Some o1) by (symmetry; exact A1) end. cbn [bind]. destruct (Z.eqb_spec (ee / 2) 0) as [Z0|Z0].
    + specialize (A4 Z0). destruct o1 as [s|]; [|congruence]. exists s. destruct A2 as [L1 [H1 R1]]. split; [reflexivity|]. split; [exact L1|]. split; [exact H1|].
      rewrite Z0, Z.mul_0_r, Z.add_0_l in Od. rewrite <- Od in A3. rewrite A3 in R1. exact R1.
    + destruct (MS w F Lw Hw ltac:(lia) ltac:(lia)) as [w1 [W1 [W2 [W3 [W4 _]]]]]. rewrite W1. cbn [bind].
      assert (He2 : 1 <= ee / 2 < 2 ^ Z.of_nat fuel) by (destruct (Z.rem ee 2 =? 1); lia).
      destruct (IH (v * v) (ee / 2) o1 w1 a1 He2 W2 W3 (mrep_mul _ _ _ _ _ W W W4) A2) as [r [R1 [R2 [R3 R4]]]].
      exists r. split; [exact R1|]. split; [exact R2|]. split; [exact R3|].
      replace (a * v ^ ee) with (a1 * (v * v) ^ (ee / 2)); [exact R4|]. rewrite A3. rewrite Od at 3. rewrite Z.pow_add_r by (try lia; destruct (Z.rem ee 2 =? 1); lia).
      rewrite Z.pow_mul_r by lia. rewrite Z.pow_2_r. ring.
Qed.
Lemma power_ok s e : ff_invmod2m c p = Some nd -> k <> O -> length s = n -> Forall cn s -> 1 <= e < 2 ^ CHUNK c ->
  exists r, ff_power c s e p = Some r /\ length r = n /\ Forall cn r /\ FV r = FV s ^ e mod P.
Proof.
  intros En K0 Ls Hs He. assert (Hn : (1 <= n)%nat) by apply pow2pos.
  unfold ff_power. rewrite En, Lp. cbn [bind]. unfold ff_copy. rewrite Ls, Nat.leb_refl. cbn [bind]. rewrite firstn_all2 by lia.
  destruct (nres_ok c Hff p nd k Hk Lp Ln Hp Podd Inv s Ls Hs) as [w [A1 [A2 [A3 A4]]]]. rewrite A1. cbn [bind].
  assert (Tw : tf F w). { apply (tf_mono c Hff 1); [apply (cn_tf c Hff); [apply len_ne; lia|exact A3]|lia]. }
  assert (W : mrep (FV s) w) by (unfold mrep; rewrite A4, Z.mod_mod by lia; reflexivity).
  assert (St : exists s1, (if e =? 2 then ff_modsqr c w p nd else o <- pow_loop (S (Z.to_nat (CHUNK c))) c p nd e None w ;; Some (match o with Some r => r | None => s end)) = Some s1
     /\ length s1 = n /\ tf (F + 1) s1 /\ mrep (FV s ^ e) s1).
  { destruct (Z.eqb_spec e 2) as [->|Ne].
    - destruct (MS w F A2 Tw ltac:(lia) ltac:(lia)) as [w1 [W1 [W2 [W3 [W4 _]]]]]. exists w1. split; [exact W1|]. split; [exact W2|]. split; [apply (tf_mono c Hff F); [exact W3|lia]|].
      rewrite Z.pow_2_r. apply (mrep_mul _ _ _ _ _ W W W4).
    - destruct (powloop_ok (FV s) (S (Z.to_nat (CHUNK c))) e None w 1) as [r [R1 [R2 [R3 R4]]]]; auto.
      { rewrite Nat2Z.inj_succ, Z.pow_succ_r, Z2Nat.id by lia. lia. }
      exists r. rewrite Z.mul_1_l in R4. split; [|auto]. match goal with |- context [bind ?t _] => replace t with (Some (Some r)) by (symmetry; exact R1) end. reflexivity. }
  destruct St as [s1 [S1 [S2 [S3 S4]]]].
  match goal with |- context [bind ?t _] => replace t with (Some s1) by (symmetry; exact S1) end. cbn [bind].
  destruct (redc_ok c Hff p nd k Hk Lp Ln Hp Hnd Podd Inv s1 (F + 1) S2 S3 ltac:(lia)) as [r [E1 [E2 [E3 [E4 [E5 [E6 _]]]]]]].
  exists r. split; [exact E1|]. split; [exact E2|]. split; [exact E3|]. unfold mrep in S4. rewrite S4 in E5. apply CA in E5. rewrite <- E5. symmetry. apply Z.mod_small. specialize (E6 K0). lia.
Qed.
(** exponent 0: the Montgomery factor is removed from the unconverted input *)
Lemma power0_ok s : ff_invmod2m c p = Some nd -> k <> O -> length s = n -> Forall cn s ->
  exists r, ff_power c s 0 p = Some r /\ length r = n /\ Forall cn r /\ 0 <= FV r < P /\ (FV r * rho) mod P = FV s mod P.
Proof.
  intros En K0 Ls Hs. assert (Hn : (1 <= n)%nat) by apply pow2pos.
  unfold ff_power. rewrite En, Lp. cbn [bind]. unfold ff_copy. rewrite Ls, Nat.leb_refl. cbn [bind]. rewrite firstn_all2 by lia.
  destruct (nres_ok c Hff p nd k Hk Lp Ln Hp Podd Inv s Ls Hs) as [w [A1 [A2 [A3 A4]]]]. rewrite A1. cbn [bind].
  replace (0 =? 2) with false by reflexivity. cbn [pow_loop]. change (Z.rem 0 2 =? 1) with false. cbn [bind]. change (Z.shiftr 0 1 =? 0) with true. cbn [bind].
  destruct (redc_ok c Hff p nd k Hk Lp Ln Hp Hnd Podd Inv s 1 Ls) as [r [E1 [E2 [E3 [E4 [E5 [E6 _]]]]]]]; [apply (cn_tf c Hff); [apply len_ne; lia|exact Hs]|lia|].
  exists r. split; [exact E1|]. split; [exact E2|]. split; [exact E3|]. split; [specialize (E6 K0); lia|exact E5].
Qed.
End F.
