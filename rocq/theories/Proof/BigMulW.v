(** Big::mul when the operands have un-normalised, possibly negative limbs: |limb| < ga * 2^BASEBITS in the first,
    |limb| < gb * 2^BASEBITS in the second. The values must be non-negative, and the columns must fit the double word. *)
From Verif Require Import Base.Word Model.Big Spec.BigSpec Proof.BigVal Proof.BigMul.
From Coq Require Import Lia.

Section Wide.
Variable c : cfg.
Hypothesis Hok : cfg_ok c.
Notation B := (BASEBITS c).
Notation C := (CHUNK c).
Notation N := (NLEN c).
Notation X := (2 ^ BASEBITS c).
Let F := cfg_ok_facts c Hok.
Let HB : 8 <= B. Proof. pose proof (cf_B c F); lia. Qed.
Let HX : 65536 <= X.
Proof. change 65536 with (2 ^ 16). apply pow2_le. pose proof (cf_B c F); lia. Qed.
Variables ga gb : Z.
Hypothesis Hga : 1 <= ga.
Hypothesis Hgb : 1 <= gb.
Notation gg := (ga * gb).
Let Hgg : 1 <= gg. Proof. rewrite <- (Z.mul_1_l 1). apply Z.mul_le_mono_nonneg; lia. Qed.
Notation M := (gg * (X * X)).
Notation n3 := (Z.of_nat N).
Hypothesis Hcol : n3 * M + 2 * (n3 * (gg * X)) + 2 < 2 ^ (2 * C - 1).
Hypothesis Hcr : 4 * M < 2 ^ (2 * C - 1).
Hypothesis Hdif : 2 * (ga * X) <= 2 ^ (C - 1).
Hypothesis Hdifb : 2 * (gb * X) <= 2 ^ (C - 1).
Let HNX : n3 * (gg * X) <= M.
Proof.
  pose proof (cf_N3 c F) as H3. pose proof (cf_C2 c F). pose proof (cf_C c F). assert (2 ^ (2 * (C - B)) <= 2 ^ 16) by (apply pow2_le; lia). change (2 ^ 16) with 65536 in *.
  replace M with (X * (gg * X)) by ring. apply Z.mul_le_mono_nonneg_r; [apply Z.mul_nonneg_nonneg; lia|]. clear Hcol Hdif. change (2 ^ 16) with 65536 in *. lia.
Qed.
Let M0 : 65536 * (gg * X) <= M. Proof. replace M with (X * (gg * X)) by ring. apply Z.mul_le_mono_nonneg_r; [apply Z.mul_nonneg_nonneg; lia|lia]. Qed.
Let gX : X <= gg * X. Proof. rewrite <- (Z.mul_1_l X) at 1. apply Z.mul_le_mono_nonneg_r; lia. Qed.
Let NM : 0 <= n3 * M. Proof. apply Z.mul_nonneg_nonneg; [lia|]. lia. Qed.

Definition wideg (g : Z) (a : list Z) : Prop := Forall (fun x => Z.abs x < g * X) a.
Notation wide := (wideg ga).
Notation wideb := (wideg gb).
Lemma wget g a i : 1 <= g -> wideg g a -> Z.abs (get a i) < g * X.
Proof.
  intros Hg H. destruct (Nat.lt_ge_cases i (length a)) as [L|L].
  - unfold wideg in H. rewrite Forall_forall in H. apply H. apply nth_In. exact L.
  - rewrite get_beyond by exact L. cbn. apply Z.mul_pos_pos; lia.
Qed.
Lemma pabs x y : Z.abs x < ga * X -> Z.abs y < gb * X -> Z.abs (x * y) <= M.
Proof. intros H1 H2. rewrite Z.abs_mul. replace M with (ga * X * (gb * X)) by ring. apply Z.mul_le_mono_nonneg; lia. Qed.
Lemma cabs a b k i : wide a -> wideb b -> Z.abs (cross a b k i) <= 4 * M.
Proof.
  intros Ha Hb. unfold cross. pose proof (wget ga a i ltac:(lia) Ha). pose proof (wget ga a (k - i) ltac:(lia) Ha). pose proof (wget gb b i ltac:(lia) Hb). pose proof (wget gb b (k - i) ltac:(lia) Hb).
  rewrite Z.abs_mul. replace (4 * M) with (2 * (ga * X) * (2 * (gb * X))) by ring. apply Z.mul_le_mono_nonneg; lia.
Qed.
Lemma bb t : Z.abs t <= n3 * M + 2 * (n3 * (gg * X)) + 2 -> chk (2 * C) t = Some t.
Proof. intros H. apply chk_ok. lia. Qed.
(** the partial sums of a column are sums of as many products as the column has *)
Lemma terms a b k is t : wide a -> wideb b -> (forall m, (m <= length is)%nat -> Z.abs (t + suml (cross a b k) (firstn m is)) <= n3 * M + 2 * (n3 * (gg * X)) + 2) ->
  mul_terms c a b k is t = Some (t + suml (cross a b k) is).
Proof.
  intros Ha Hb. revert t. induction is as [|i is IH]; intros t H.
  - cbn. f_equal. lia.
  - cbn [mul_terms suml fold_right].
    pose proof (wget ga a i ltac:(lia) Ha). pose proof (wget ga a (k - i) ltac:(lia) Ha). pose proof (wget gb b i ltac:(lia) Hb). pose proof (wget gb b (k - i) ltac:(lia) Hb). pose proof (cabs a b k i Ha Hb) as HA.
    pose proof (H 1%nat ltac:(cbn; lia)) as HH1. cbn [firstn suml fold_right] in HH1.
    rewrite !chk_ok by lia. cbn [bind]. fold (cross a b k i). rewrite (chk_ok (2 * C) (cross a b k i)) by lia. cbn [bind].
    rewrite (bb (t + cross a b k i)) by lia. cbn [bind]. rewrite IH; [f_equal; unfold suml; lia|].
    intros m Hm. specialize (H (S m) ltac:(cbn; lia)). cbn [firstn suml fold_right] in H. unfold suml in *. rewrite <- Z.add_assoc. exact H.
Qed.
Lemma firstn_seqW m : forall s n, (n <= m)%nat -> firstn n (seq s m) = seq s n.
Proof. induction m as [|m IH]; intros s [|n] H; try reflexivity; [lia|]. cbn [seq firstn]. rewrite IH by lia. reflexivity. Qed.
Lemma suml_upd f v i n : forall lo, (lo <= i < lo + n)%nat -> suml (fun l => if (l =? i)%nat then v else f l) (seq lo n) = suml f (seq lo n) + v - f i.
Proof.
  induction n as [|n IH]; intros lo Hi; [lia|]. cbn [seq suml fold_right].
  fold (suml (fun l => if (l =? i)%nat then v else f l) (seq (S lo) n)). fold (suml f (seq (S lo) n)).
  destruct (Nat.eqb_spec lo i) as [->|D]; [|rewrite IH by lia; lia].
  assert (E : suml (fun l => if (l =? i)%nat then v else f l) (seq (S i) n) = suml f (seq (S i) n)); [|lia].
  apply suml_ext. intros l Hl. apply in_seq in Hl. destruct (Nat.eqb_spec l i); [lia|reflexivity].
Qed.
Lemma mix a b k lo n m : wide a -> wideb b -> (lo + (lo + n) = S k)%nat -> (1 + k / 2 + m <= lo + n)%nat ->
  exists e, (forall l, Z.abs (e l) <= M) /\ suml (dprod a b) (seq lo n) + suml (cross a b k) (seq (1 + k / 2) m) = suml e (seq lo n)
    /\ (forall l, (1 + k / 2 + m <= l \/ l + (1 + k / 2 + m) <= k)%nat -> e l = dprod a b l).
Proof.
  intros Ha Hb Hk. assert (HM : forall x y, Z.abs (get a x * get b y) <= M) by (intros x y; apply pabs; [apply wget; [lia|exact Ha]|apply wget; [lia|exact Hb]]).
  pose proof (Nat.div_mod_eq k 2) as DM. pose proof (Nat.mod_upper_bound k 2 ltac:(lia)) as DB.
  induction m as [|m IH]; intros Hm.
  - exists (dprod a b). split; [intros l; apply HM|]. split; [cbn; lia|]. reflexivity.
  - destruct (IH ltac:(lia)) as [e [E1 [E2 E3]]]. set (i := (1 + k / 2 + m)%nat) in *.
    exists (fun l => if (l =? i)%nat then get a i * get b (k - i) else (fun l => if (l =? k - i)%nat then get a (k - i) * get b i else e l) l).
    split; [|split].
    + intros l. cbn beta. destruct (l =? i)%nat; [apply HM|]. destruct (l =? k - i)%nat; [apply HM|apply E1].
    + rewrite suml_upd by lia. rewrite suml_upd by lia. rewrite <- E2. destruct (Nat.eqb_spec i (k - i)); [lia|].
      rewrite (E3 i) by lia. rewrite (E3 (k - i)%nat) by lia. rewrite seq_S, suml_app. fold i. cbn [suml fold_right]. unfold cross, dprod. ring.
    + intros l Hl. cbn beta. destruct (Nat.eqb_spec l i); [lia|]. destruct (Nat.eqb_spec l (k - i)); [lia|]. apply E3. lia.
Qed.
Lemma suml_abs f K l : (forall i, Z.abs (f i) <= K) -> Z.abs (suml f l) <= Z.of_nat (length l) * K.
Proof. intros H. induction l as [|x l IH]; [cbn; lia|]. cbn [suml fold_right length]. specialize (H x). unfold suml in IH. rewrite Nat2Z.inj_succ. lia. Qed.
(** every partial sum of column k *)
Lemma part a b k lo n m co : wide a -> wideb b -> (lo + (lo + n) = S k)%nat -> (1 + k / 2 + m <= lo + n)%nat -> (n <= N)%nat -> Z.abs co <= 2 * (n3 * (gg * X)) + 2 ->
  Z.abs (co + suml (dprod a b) (seq lo n) + suml (cross a b k) (seq (1 + k / 2) m)) <= n3 * M + 2 * (n3 * (gg * X)) + 2.
Proof.
  intros Ha Hb H1 H2 H3 Hco. destruct (mix a b k lo n m Ha Hb H1 H2) as [e [E1 [E2 _]]]. rewrite <- Z.add_assoc, E2.
  pose proof (suml_abs e M (seq lo n) E1) as E. rewrite seq_length in E. assert (Z.of_nat n * M <= n3 * M) by (apply Z.mul_le_mono_nonneg_r; lia). lia.
Qed.
Lemma sum_abs f K m : 0 <= K -> (forall i, Z.abs (f i) <= K) -> Z.abs (sumf f m) <= Z.of_nat m * K.
Proof. intros HK H. induction m as [|m IH]; [cbn; lia|]. cbn [sumf]. specialize (H m). replace (Z.of_nat (S m) * K) with (Z.of_nat m * K + K) by lia. lia. Qed.
Lemma sum_beyond f m : (forall i, (N <= i)%nat -> f i = 0) -> sumf f m = sumf f (Nat.min m N).
Proof.
  intros H. induction m as [|m IH]; [reflexivity|]. destruct (Nat.lt_ge_cases m N) as [L|L].
  - rewrite Nat.min_l by lia. reflexivity.
  - cbn [sumf]. rewrite H by exact L. rewrite IH, !Nat.min_r by lia. lia.
Qed.
Lemma dsum a b m : length a = N -> wide a -> wideb b -> Z.abs (sumf (dprod a b) m) <= n3 * M.
Proof.
  intros L Ha Hb. rewrite sum_beyond by (intros i Hi; unfold dprod; rewrite (get_beyond a i) by lia; apply Z.mul_0_l).
  eapply Z.le_trans; [apply (sum_abs _ M); [lia|]|apply Z.mul_le_mono_nonneg_r; lia]. intros i. unfold dprod. apply pabs; [apply wget; [lia|exact Ha]|apply wget; [lia|exact Hb]].
Qed.
Lemma cconv a b k : length a = N -> wide a -> wideb b -> Z.abs (conv a b k) <= n3 * M.
Proof.
  intros L Ha Hb. unfold conv. rewrite sum_beyond by (intros i Hi; rewrite (get_beyond a i) by lia; apply Z.mul_0_l).
  eapply Z.le_trans; [apply (sum_abs _ M); [lia|]|apply Z.mul_le_mono_nonneg_r; lia]. intros i. apply pabs; [apply wget; [lia|exact Ha]|apply wget; [lia|exact Hb]].
Qed.
(** bound on the carry: 2 N ga X *)
Notation CB := (2 * (n3 * (gg * X)) + 2).
Let CBM : CB <= 3 * M. Proof. lia. Qed.
Lemma nx : n3 < X.
Proof.
  pose proof (cf_N3 c F) as H3. pose proof (cf_C2 c F). pose proof (cf_C c F). assert (2 ^ (2 * (C - B)) <= 2 ^ 16) by (apply pow2_le; lia). change (2 ^ 16) with 65536 in *. lia.
Qed.
Lemma carry t co k : Z.abs k <= n3 * M -> Z.abs co <= CB -> t = k + co -> Z.abs (t / X) <= CB.
Proof.
  intros H1 H2 ->. assert (N2 : n3 * M = X * (n3 * (gg * X))) by ring. assert (Q : 0 <= n3 * (gg * X)) by (apply Z.mul_nonneg_nonneg; lia).
  set (P := n3 * (gg * X)) in *. assert (U : (k + co) / X <= P + P + 2). { apply Z.div_le_upper_bound; [lia|]. assert (2 * P + 2 <= X * (P + 2)) by (transitivity (65536 * (P + 2)); [lia|apply Z.mul_le_mono_nonneg_r; lia]). rewrite N2 in H1. lia. }
  assert (L : - (P + P + 2) <= (k + co) / X). { apply Z.div_le_lower_bound; [lia|]. assert (2 * P + 2 <= X * (P + 2)) by (transitivity (65536 * (P + 2)); [lia|apply Z.mul_le_mono_nonneg_r; lia]). rewrite N2 in H1. lia. }
  lia.
Qed.
Lemma lo_spec a b d n : forall j co, length a = N -> wide a -> length b = N -> wideb b -> (forall i, get d i = dprod a b i) -> (j + n <= N)%nat -> Z.abs co <= CB ->
  exists co' ds, mul_lo c a b d (seq j n) (sumf (dprod a b) j) co = Some (sumf (dprod a b) (j + n), co', ds)
    /\ canon B ds /\ length ds = n /\ Z.abs co' <= CB /\ val B ds + 2 ^ (B * Z.of_nat n) * co' = colv B (conv a b) j n + co.
Proof.
  induction n as [|n IH]; intros j co La Ha Lb Hb Hd Hj Hco.
  - exists co, []. cbn [seq mul_lo colv val length]. rewrite Nat.add_0_r. rewrite Z.mul_0_r, Z.pow_0_r. repeat split; try lia. constructor.
  - cbn [seq mul_lo]. rewrite Hd. change (sumf (dprod a b) j + dprod a b j) with (sumf (dprod a b) (S j)).
    pose proof (dsum a b (S j) La Ha Hb) as Hs. pose proof (cconv a b j La Ha Hb) as Hcv.
    rewrite bb by lia. cbn [bind]. rewrite bb by lia. cbn [bind].
    rewrite terms; [|exact Ha|exact Hb|].
    2:{ intros m Hm. rewrite seq_length in Hm. rewrite firstn_seqW by lia. rewrite (sumf_split _ 0 (S j)). cbn [sumf]. rewrite Z.add_0_l. pose proof (Nat.div_mod_eq j 2). apply part; try lia; [exact Ha|exact Hb]. }
    replace (co + sumf (dprod a b) (S j) + suml (cross a b j) (seq (1 + j / 2) (j - j / 2))) with (conv a b j + co) by (rewrite <- (col_low a b j); lia).
    set (t := conv a b j + co) in *. cbn [bind].
    assert (Hsh : Z.shiftr t B = t / X) by (apply Z.shiftr_div_pow2; lia). rewrite Hsh.
    destruct (IH (S j) (t / X) La Ha Lb Hb Hd ltac:(lia)) as [co' [ds [H1 [H2 [H3 [H4 H5]]]]]]; [apply (carry t co (conv a b j)); [lia|lia|reflexivity]|].
    rewrite H1. cbn [bind]. exists co', (dlow c t :: ds). replace (j + S n)%nat with (S j + n)%nat by lia.
    split; [reflexivity|]. rewrite (dlow_mod c Hok). split; [constructor; [apply Z.mod_pos_bound; lia|exact H2]|]. split; [cbn; lia|]. split; [exact H4|].
    cbn [val colv]. replace (B * Z.of_nat (S n)) with (B + B * Z.of_nat n) by lia. rewrite Z.pow_add_r by lia. pose proof (Z.div_mod t X ltac:(lia)) as D.
    replace (t mod X + X * val B ds + X * 2 ^ (B * Z.of_nat n) * co') with (t mod X + X * (val B ds + 2 ^ (B * Z.of_nat n) * co')) by ring. rewrite H5. lia.
Qed.
Lemma sumf_from f m : (m <= N)%nat -> forall K, 0 <= K -> (forall i, Z.abs (f i) <= K) -> Z.abs (sumf f N - sumf f m) <= n3 * K.
Proof.
  intros L K HK H. replace N with (m + (N - m))%nat at 1 by lia. rewrite sumf_split. replace (sumf f m + suml f (seq m (N - m)) - sumf f m) with (suml f (seq m (N - m))) by ring.
  assert (E : forall l, Z.abs (suml f l) <= Z.of_nat (length l) * K). { induction l as [|x l IH]; [cbn; lia|]. cbn [suml fold_right length]. specialize (H x). unfold suml in IH. rewrite Nat2Z.inj_succ. lia. }
  eapply Z.le_trans; [apply E|]. rewrite seq_length. apply Z.mul_le_mono_nonneg_r; lia.
Qed.
Lemma hi_spec a b d n : forall j co, length a = N -> wide a -> length b = N -> wideb b -> (forall i, get d i = dprod a b i) -> (N <= j)%nat -> (j + n <= 2 * N - 1)%nat -> Z.abs co <= CB ->
  exists s' co' ds, mul_hi c a b d (seq j n) (sumf (dprod a b) N - sumf (dprod a b) (j - N)) co = Some (s', co', ds)
    /\ canon B ds /\ length ds = n /\ Z.abs co' <= CB /\ val B ds + 2 ^ (B * Z.of_nat n) * co' = colv B (conv a b) j n + co.
Proof.
  induction n as [|n IH]; intros j co La Ha Lb Hb Hd Hj1 Hj Hco.
  - eexists _, co, []. cbn [seq mul_hi colv val length]. rewrite Z.mul_0_r, Z.pow_0_r. repeat split; try lia. constructor.
  - cbn [seq mul_hi]. rewrite Hd.
    replace (sumf (dprod a b) N - sumf (dprod a b) (j - N) - dprod a b (j - N)) with (sumf (dprod a b) N - sumf (dprod a b) (S (j - N))) by (cbn [sumf]; lia).
    assert (Hs2 : Z.abs (sumf (dprod a b) N - sumf (dprod a b) (S (j - N))) <= n3 * M).
    { apply sumf_from; [lia|lia|]. intros i. unfold dprod. apply pabs; [apply wget; [lia|exact Ha]|apply wget; [lia|exact Hb]]. }
    pose proof (cconv a b j La Ha Hb) as Hcv.
    rewrite bb by lia. cbn [bind]. rewrite bb by lia. cbn [bind].
    rewrite terms; [|exact Ha|exact Hb|].
    2:{ intros m Hm. rewrite seq_length in Hm. rewrite firstn_seqW by lia. set (lo := S (j - N)) in *. replace N with (lo + (N - lo))%nat at 1 by lia. rewrite sumf_split.
        replace (co + (sumf (dprod a b) lo + suml (dprod a b) (seq lo (N - lo)) - sumf (dprod a b) lo)) with (co + suml (dprod a b) (seq lo (N - lo))) by lia.
        pose proof (Nat.div_mod_eq j 2). unfold lo in *. apply part; [exact Ha|exact Hb|lia|lia|lia|exact Hco]. }
    assert (Esum : sumf (dprod a b) N = sumf (dprod a b) (S j)).
    { replace (S j) with (N + (S j - N))%nat by lia. rewrite sumf_split. rewrite suml_zero; [lia|]. intros i Hi. apply in_seq in Hi. unfold dprod. rewrite get_beyond; [lia|]. rewrite La. lia. }
    replace (co + (sumf (dprod a b) N - sumf (dprod a b) (S (j - N))) + suml (cross a b j) (seq (1 + j / 2) (N - (1 + j / 2)))) with (conv a b j + co).
    2:{ rewrite <- (col_high a b j N La Lb) by lia. rewrite Esum. lia. }
    set (t := conv a b j + co) in *. cbn [bind].
    assert (Hsh : Z.shiftr t B = t / X) by (apply Z.shiftr_div_pow2; lia). rewrite Hsh. replace (S (j - N)) with (S j - N)%nat by lia.
    destruct (IH (S j) (t / X) La Ha Lb Hb Hd ltac:(lia) ltac:(lia)) as [s' [co' [ds [H1 [H2 [H3 [H4 H5]]]]]]]; [apply (carry t co (conv a b j)); [lia|lia|reflexivity]|].
    rewrite H1. cbn [bind]. exists s', co', (dlow c t :: ds).
    split; [reflexivity|]. rewrite (dlow_mod c Hok). split; [constructor; [apply Z.mod_pos_bound; lia|exact H2]|]. split; [cbn; lia|]. split; [exact H4|].
    cbn [val colv]. replace (B * Z.of_nat (S n)) with (B + B * Z.of_nat n) by lia. rewrite Z.pow_add_r by lia. pose proof (Z.div_mod t X ltac:(lia)) as D.
    replace (t mod X + X * val B ds + X * 2 ^ (B * Z.of_nat n) * co') with (t mod X + X * (val B ds + 2 ^ (B * Z.of_nat n) * co')) by ring. rewrite H5. lia.
Qed.
Lemma d2 a b : wide a -> wideb b -> length a = length b ->
  exists d, map2o (fun x y => chk (2 * C) (x * y)) a b = Some d /\ length d = length a /\ forall i, get d i = dprod a b i.
Proof.
  intros Ha. revert b. induction Ha as [|x a Hx Ha IH]; intros [|y b] Hb Hl; cbn in Hl; try discriminate.
  - exists []. split; [reflexivity|]. split; [reflexivity|]. intros i. unfold dprod, get. destruct i; reflexivity.
  - apply Forall_cons_iff in Hb. destruct Hb as [Hy Hb]. destruct (IH b Hb ltac:(lia)) as [d [H1 [H2 H3]]]. pose proof (pabs x y Hx Hy) as PX.
    cbn [map2o]. rewrite (chk_ok (2 * C) (x * y)) by lia. cbn [bind]. rewrite H1. cbn [bind]. eexists; split; [reflexivity|]. split; [cbn; lia|]. intros [|i]; [reflexivity|]. exact (H3 i).
Qed.
Theorem mul_wide a b : length a = N -> wide a -> length b = N -> wideb b -> 0 <= val B a < 2 ^ (B * Z.of_nat N) -> 0 <= val B b < 2 ^ (B * Z.of_nat N) ->
  exists r, mul c a b = Some r /\ dbig_wf c r /\ val B r = val B a * val B b.
Proof.
  intros La Ha Lb Hb Ra Rb. pose proof (cf_N c F) as HN.
  destruct (d2 a b Ha Hb) as [d [D1 [D2 D3]]]; [rewrite La, Lb; reflexivity|].
  unfold mul. rewrite D1. cbn [bind]. rewrite D3.
  assert (Hsh : Z.shiftr (dprod a b 0) B = dprod a b 0 / X) by (apply Z.shiftr_div_pow2; lia). rewrite Hsh.
  assert (A0 : Z.abs (dprod a b 0) <= M) by (unfold dprod; apply pabs; [apply wget; [lia|exact Ha]|apply wget; [lia|exact Hb]]).
  assert (M1 : M <= n3 * M) by (rewrite <- (Z.mul_1_l M) at 1; apply Z.mul_le_mono_nonneg_r; lia).
  destruct (lo_spec a b d (N - 1) 1 (dprod a b 0 / X) La Ha Lb Hb D3 ltac:(lia)) as [co1 [ds1 [L1 [L2 [L3 [L4 L5]]]]]]; [apply (carry _ 0 (dprod a b 0)); lia|].
  change (sumf (dprod a b) 1) with (0 + dprod a b 0) in L1. rewrite Z.add_0_l in L1. rewrite L1. cbn [bind].
  destruct (hi_spec a b d (N - 1) N co1 La Ha Lb Hb D3 ltac:(lia) ltac:(lia) L4) as [s2 [co2 [ds2 [K1 [K2 [K3 [K4 K5]]]]]]].
  replace (1 + (N - 1))%nat with N by lia. rewrite Nat.sub_diag in K1. cbn [sumf] in K1. rewrite Z.sub_0_r in K1. rewrite K1. cbn [bind]. rewrite (dlow_mod c Hok).
  set (pre := dprod a b 0 mod X :: ds1 ++ ds2).
  assert (Hpc : canon B pre). { constructor; [apply Z.mod_pos_bound; lia|]. apply Forall_app. split; assumption. }
  assert (Hpl : length pre = (2 * N - 1)%nat) by (unfold pre; cbn [length]; rewrite app_length; lia).
  assert (Hpv : val B pre + 2 ^ (B * Z.of_nat (2 * N - 1)) * co2 = val B a * val B b).
  { rewrite <- (colv_conv B a b (2 * N - 1)) by (rewrite La, Lb; lia).
    replace (2 * N - 1)%nat with (S ((N - 1) + (N - 1)))%nat by lia.
    cbn [colv]. rewrite colv_app by lia. replace (1 + (N - 1))%nat with N by lia.
    unfold pre. cbn [val]. rewrite val_app by lia. rewrite L3.
    replace (B * Z.of_nat (S (N - 1 + (N - 1)))) with (B + (B * Z.of_nat (N - 1) + B * Z.of_nat (N - 1))) by lia.
    assert (0 <= B * Z.of_nat (N - 1)) by (apply Z.mul_nonneg_nonneg; lia). rewrite !Z.pow_add_r by lia. pose proof (Z.div_mod (dprod a b 0) X ltac:(lia)) as D.
    assert (E0 : conv a b 0 = dprod a b 0) by (unfold conv, dprod; cbn [sumf Nat.sub]; lia).
    rewrite E0. set (E := 2 ^ (B * Z.of_nat (N - 1))) in *.
    replace (colv B (conv a b) 1 (N - 1)) with (val B ds1 + E * co1 - dprod a b 0 / X) by lia.
    replace (colv B (conv a b) N (N - 1)) with (val B ds2 + E * co2 - co1) by lia.
    rewrite D at 2. ring. }
  assert (Hco : 0 <= co2 < X).
  { apply (top_digit c Hok pre co2 (2 * N - 1) (val B a * val B b)); try assumption.
    replace (S (2 * N - 1)) with (N + N)%nat by lia. replace (B * Z.of_nat (N + N)) with (B * Z.of_nat N + B * Z.of_nat N) by lia.
    assert (0 <= B * Z.of_nat N) by (apply Z.mul_nonneg_nonneg; lia). rewrite Z.pow_add_r by lia. split; [apply Z.mul_nonneg_nonneg; lia|]. apply Z.mul_lt_mono_nonneg; lia. }
  assert (HXC : X <= 2 ^ (C - 1)) by (apply pow2_le; pose proof (cf_C c F); lia).
  rewrite wrap_id by (pose proof (cf_C c F); lia). eexists; split; [reflexivity|].
  replace (dprod a b 0 mod X :: ds1 ++ ds2 ++ [co2]) with (pre ++ [co2]) by (unfold pre; rewrite <- app_comm_cons, <- app_assoc; reflexivity).
  split; [split|].
  - rewrite app_length, Hpl. cbn [length]. unfold DNLEN. lia.
  - apply Forall_app. split; [exact Hpc|]. constructor; [exact Hco|constructor].
  - rewrite val_app, Hpl by lia. cbn [val]. rewrite Z.mul_0_r, Z.add_0_r. exact Hpv.
Qed.
End Wide.
