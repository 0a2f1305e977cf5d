(** Squaring and Montgomery reduction. *)
From Verif Require Import Base.Word Model.Big Spec.BigSpec Proof.BigVal Proof.BigShift Proof.BigMul.
Require Import Psatz.

Lemma conv_sqr a k n : length a = n -> (k + 1 <= 2 * n)%nat ->
  conv a a k = 2 * suml (fun i => get a (k - i) * get a i) (seq (k + 1 - n) ((k + 1) / 2 - (k + 1 - n)))
             + (if Nat.even k then get a (k / 2) * get a (k / 2) else 0).
Proof.
  intros Hn Hk. unfold conv. set (f := fun i => get a i * get a (k - i)).
  rewrite (pairing f).
  assert (Hmid : midf f k = if Nat.even k then get a (k / 2) * get a (k / 2) else 0).
  { unfold midf, f. pose proof (half_eq k) as Hh. destruct (Nat.even k); [|reflexivity]. rewrite Hh. reflexivity. }
  rewrite Hmid. f_equal.
  pose proof (half_eq k) as Hh. assert (Hk2 : (k / 2 <= k)%nat) by (apply Nat.div_le_upper_bound; lia).
  assert (Eh : ((k + 1) / 2 = k - k / 2)%nat).
  { rewrite Hh. destruct (Nat.even k) eqn:E.
    - apply Nat.even_spec in E. destruct E as [h ->]. rewrite !(Nat.mul_comm 2).
      rewrite Nat.div_add_l, Nat.div_mul by lia. cbn. lia.
    - assert (O : Nat.odd k = true) by (rewrite <- Nat.negb_even, E; reflexivity).
      apply Nat.odd_spec in O. destruct O as [h ->].
      replace (2 * h + 1 + 1)%nat with ((h + 1) * 2)%nat by lia. rewrite Nat.div_mul by lia.
      rewrite (Nat.mul_comm 2), Nat.div_add_l by lia. cbn. lia. }
  rewrite Eh. set (m := (k - k / 2)%nat) in *.
  assert (S1 : suml (fun i => f i + f (k - i)%nat) (seq (1 + k / 2) m) = 2 * sumf f m).
  { rewrite (suml_ext _ (fun i => f (k - i)%nat + f (k - i)%nat)).
    2:{ intros i Hi. apply in_seq in Hi. unfold f. replace (k - (k - i))%nat with i by lia. ring. }
    rewrite suml_add. replace (1 + k / 2)%nat with (S k - m)%nat by lia. rewrite suml_rev by lia. lia. }
  rewrite S1. f_equal.
  set (lo := (k + 1 - n)%nat).
  assert (Hlo : (lo <= m)%nat) by (destruct (Nat.even k); lia).
  replace m with (lo + (m - lo))%nat at 1 by lia. rewrite sumf_split.
  assert (Z0 : sumf f lo = 0).
  { assert (G : forall p, (p <= lo)%nat -> sumf f p = 0); [|apply G; lia].
    induction p as [|p IH]; intros Hp; [reflexivity|]. cbn [sumf]. rewrite IH by lia. unfold f.
    rewrite (get_beyond a (k - p)) by lia. lia. }
  rewrite Z0, Z.add_0_l. apply suml_ext. intros i Hi. unfold f. ring.
Qed.

Lemma half_up k : ((k + 1) / 2 = k - k / 2)%nat.
Proof.
  rewrite half_eq. destruct (Nat.even k) eqn:E.
  - apply Nat.even_spec in E. destruct E as [h ->]. rewrite !(Nat.mul_comm 2).
    rewrite Nat.div_add_l, Nat.div_mul by lia. cbn. lia.
  - assert (O : Nat.odd k = true) by (rewrite <- Nat.negb_even, E; reflexivity).
    apply Nat.odd_spec in O. destruct O as [h ->].
    replace (2 * h + 1 + 1)%nat with ((h + 1) * 2)%nat by lia. rewrite Nat.div_mul by lia.
    rewrite (Nat.mul_comm 2), Nat.div_add_l by lia. cbn. lia.
Qed.

Section WithCfg.
Variable c : cfg.
Hypothesis Hok : cfg_ok c.
Notation B := (BASEBITS c).
Notation C := (CHUNK c).
Notation N := (NLEN c).
Notation X := (2 ^ BASEBITS c).
Notation Nz := (Z.of_nat (NLEN c)).
Let F := cfg_ok_facts c Hok.
Let HB : 16 <= B. Proof. exact (cf_B c F). Qed.
Let HC : B + 3 <= C. Proof. exact (cf_C c F). Qed.
Let HX : 65536 <= X.
Proof. change 65536 with (2 ^ 16). apply pow2_le. lia. Qed.
Let HNX : Nz < X.
Proof.
  pose proof (cf_N3 c F) as H3. pose proof (cf_C2 c F).
  assert (2 ^ (2 * (C - B)) <= 2 ^ 16) by (apply pow2_le; lia). change (2 ^ 16) with 65536 in *. lia.
Qed.
Let G1 : Nz * X <= X * X.
Proof. apply Z.mul_le_mono_nonneg_r; lia. Qed.
Let G2 : Nz <= Nz * X.
Proof. nia. Qed.
Let G3 : 0 <= Nz * (X * X).
Proof. apply Z.mul_nonneg_nonneg; lia. Qed.
Let G4 : X * 65536 <= X * X.
Proof. apply Z.mul_le_mono_nonneg_l; lia. Qed.
Let HXC : X <= 2 ^ (C - 1).
Proof. apply pow2_le. lia. Qed.

Lemma pos_bound t : 0 <= t <= (Nz + 1) * (X * X) -> chk (2 * C) t = Some t.
Proof. intros H. apply big_bound; [exact Hok|]. lia. Qed.

Lemma sqr_terms_spec a j is t : canon B a -> 0 <= t ->
  t + suml (fun i => get a (j - i) * get a i) is <= (Nz + 1) * (X * X) ->
  sqr_terms c a j is t = Some (t + suml (fun i => get a (j - i) * get a i) is)
  /\ 0 <= suml (fun i => get a (j - i) * get a i) is.
Proof.
  intros Ha. revert t. induction is as [|i is IH]; intros t Ht H.
  - cbn. split; [f_equal; lia|lia].
  - cbn [sqr_terms]. unfold suml in *. cbn [fold_right] in *.
    pose proof (canon_get B a i ltac:(lia) Ha) as Hi. pose proof (canon_get B a (j - i) ltac:(lia) Ha) as Hj.
    set (p := get a (j - i) * get a i) in *.
    assert (Hp : 0 <= p) by (apply Z.mul_nonneg_nonneg; lia).
    assert (Hp2 : p <= X * X) by (apply Z.mul_le_mono_nonneg; lia).
    destruct (IH (t + p)) as [IH1 IH2]; [lia|lia|].
    rewrite pos_bound by lia. cbn [bind]. rewrite pos_bound by lia. cbn [bind].
    rewrite IH1. split; [f_equal; lia|lia].
Qed.

Lemma sqr_col_spec a j lo co : big_wf c a -> lo = (j + 1 - N)%nat -> (S lo <= (j + 1) / 2)%nat ->
  (j + 1 <= 2 * N)%nat -> 0 <= co <= Nz * X ->
  sqr_col c a j (j - lo) lo (seq (S lo) ((j + 1) / 2 - S lo)) (Nat.even j) co = Some (conv a a j + co).
Proof.
  intros [La Ha] Hlo Hlo2 Hj Hco.
  pose proof (conv_bound c Hok a a j Ha Ha ltac:(lia)) as Hcv.
  pose proof (conv_sqr a j N La Hj) as E. rewrite <- Hlo in E.
  replace ((j + 1) / 2 - lo)%nat with (S ((j + 1) / 2 - S lo)) in E by lia.
  cbn [seq suml fold_right] in E. fold (suml (fun i => get a (j - i) * get a i) (seq (S lo) ((j + 1) / 2 - S lo))) in E.
  set (S1 := suml (fun i => get a (j - i) * get a i) (seq (S lo) ((j + 1) / 2 - S lo))) in *.
  pose proof (canon_get B a lo ltac:(lia) Ha) as Hl1. pose proof (canon_get B a (j - lo) ltac:(lia) Ha) as Hl2.
  pose proof (canon_get B a (j / 2) ltac:(lia) Ha) as Hm.
  unfold sqr_col. set (p := get a (j - lo) * get a lo) in *.
  assert (Hp : 0 <= p <= X * X) by (split; [apply Z.mul_nonneg_nonneg|apply Z.mul_le_mono_nonneg]; lia).
  set (m := if Nat.even j then get a (j / 2) * get a (j / 2) else 0) in *.
  assert (Hm0 : 0 <= m <= X * X).
  { unfold m. destruct (Nat.even j); [|lia].
    split; [apply Z.mul_nonneg_nonneg|apply Z.mul_le_mono_nonneg]; lia. }
  assert (S1b : 0 <= S1).
  { unfold S1. generalize (seq (S lo) ((j + 1) / 2 - S lo)). intros l.
    induction l as [|i l IHl]; [cbn; lia|]. unfold suml in *. cbn [fold_right].
    pose proof (canon_get B a i ltac:(lia) Ha). pose proof (canon_get B a (j - i) ltac:(lia) Ha).
    assert (0 <= get a (j - i) * get a i) by (apply Z.mul_nonneg_nonneg; lia). lia. }
  rewrite pos_bound by lia. cbn [bind].
  destruct (sqr_terms_spec a j (seq (S lo) ((j + 1) / 2 - S lo)) p Ha ltac:(lia)) as [T1 T2]; [fold S1; lia|].
  fold S1 in T1. rewrite T1. cbn [bind].
  rewrite pos_bound by lia. cbn [bind]. rewrite pos_bound by lia. cbn [bind].
  unfold m in *. destruct (Nat.even j).
  - rewrite pos_bound by lia. cbn [bind]. rewrite pos_bound by lia. f_equal. lia.
  - f_equal. lia.
Qed.

(** two columns *)
Lemma carry_step t : 0 <= t <= Nz * (X * X) -> Z.shiftr t B = t / X /\ 0 <= t / X <= Nz * X.
Proof.
  intros H. split; [apply Z.shiftr_div_pow2; lia|].
  split; [apply Z.div_pos; lia|]. apply Z.div_le_upper_bound; lia.
Qed.

Lemma sqr_lo_spec a f : forall j co, big_wf c a -> Nat.even j = false -> (j + 2 * f <= N)%nat -> 0 <= co <= Nz * X ->
  exists co' ds, sqr_lo c a f j co = Some (co', ds) /\ canon B ds /\ length ds = (2 * f)%nat /\ 0 <= co' <= Nz * X
   /\ val B ds + 2 ^ (B * Z.of_nat (2 * f)) * co' = colv B (conv a a) j (2 * f) + co.
Proof.
  induction f as [|f IH]; intros j co Hw Hodd Hj Hco.
  - exists co, []. change (2 * 0)%nat with 0%nat. cbn [sqr_lo val length colv]. change (Z.of_nat 0) with 0.
    rewrite Z.mul_0_r, Z.pow_0_r. split; [reflexivity|]. split; [constructor|]. split; [reflexivity|]. split; [exact Hco|lia].
  - cbn [sqr_lo].
    assert (Hj1 : (1 <= j)%nat) by (destruct j; [discriminate|lia]).
    assert (Heven1 : Nat.even (j + 1) = true) by (rewrite Nat.add_1_r, Nat.even_succ, <- Nat.negb_even, Hodd; reflexivity).
    assert (Heven2 : Nat.even (j + 2) = false) by (replace (j + 2)%nat with (S (S j)) by lia; exact Hodd).
    pose proof (half_up j) as U0. pose proof (half_up (j + 1)) as U1.
    pose proof (half_eq j) as E0. pose proof (half_eq (j + 1)) as E1. rewrite Hodd in E0. rewrite Heven1 in E1.
    pose proof (sqr_col_spec a j 0 co Hw ltac:(lia) ltac:(lia) ltac:(lia) Hco) as C1.
    rewrite Nat.sub_0_r, Hodd in C1. rewrite C1. cbn [bind].
    set (t := conv a a j + co) in *.
    assert (Ht : 0 <= t <= Nz * (X * X)).
    { apply col_bound; try assumption. apply (conv_bound c Hok); [exact (proj2 Hw)|exact (proj2 Hw)|rewrite (proj1 Hw); lia]. }
    destruct (carry_step t Ht) as [Esh Hc1]. rewrite Esh.
    pose proof (sqr_col_spec a (j + 1) 0 (t / X) Hw ltac:(lia) ltac:(lia) ltac:(lia) Hc1) as C2.
    rewrite Nat.sub_0_r, Heven1 in C2. replace (j + 1 + 1)%nat with (j + 2)%nat in C2 by lia. rewrite C2. cbn [bind].
    set (t' := conv a a (j + 1) + t / X) in *.
    assert (Ht' : 0 <= t' <= Nz * (X * X)).
    { apply col_bound; try assumption. apply (conv_bound c Hok); [exact (proj2 Hw)|exact (proj2 Hw)|rewrite (proj1 Hw); lia]. }
    destruct (carry_step t' Ht') as [Esh' Hc2]. rewrite Esh'.
    destruct (IH (j + 2)%nat (t' / X) Hw Heven2 ltac:(lia) Hc2) as [co' [ds [H1 [H2 [H3 [H4 H5]]]]]].
    rewrite H1. cbn [bind fst snd]. rewrite !(dlow_mod c Hok).
    eexists co', _. split; [reflexivity|].
    pose proof (Z.mod_pos_bound t X ltac:(lia)) as M1. pose proof (Z.mod_pos_bound t' X ltac:(lia)) as M2.
    split; [constructor; [exact M1|constructor; [exact M2|exact H2]]|].
    split; [cbn [length]; lia|]. split; [exact H4|].
    replace (2 * S f)%nat with (S (S (2 * f))) by lia. cbn [colv val].
    replace (B * Z.of_nat (S (S (2 * f)))) with (B + (B + B * Z.of_nat (2 * f))) by lia.
    rewrite !Z.pow_add_r by lia.
    replace (S (S j)) with (j + 2)%nat by lia. replace (S j) with (j + 1)%nat by lia.
    pose proof (Z.div_mod t X ltac:(lia)) as D. pose proof (Z.div_mod t' X ltac:(lia)) as D'.
    replace (colv B (conv a a) (j + 2) (2 * f)) with (val B ds + 2 ^ (B * Z.of_nat (2 * f)) * co' - t' / X) by lia.
    replace (conv a a j) with (t - co) by (unfold t; lia).
    replace (conv a a (j + 1)) with (t' - t / X) by (unfold t'; lia).
    set (E := 2 ^ (B * Z.of_nat (2 * f))) in *. set (V := val B ds).
    set (q := t / X) in *. set (q' := t' / X) in *. set (r := t mod X) in *. set (r' := t' mod X) in *.
    transitivity ((X * q + r) + X * ((X * q' + r') - q + X * (V + E * co' - q'))); [ring|].
    rewrite <- D, <- D'. ring.
Qed.

Lemma sqr_hi_spec a f : forall j co, big_wf c a -> Nat.even j = false -> (N <= j + 1)%nat -> (j + 2 * f + 3 <= 2 * N)%nat -> 0 <= co <= Nz * X ->
  exists co' ds, sqr_hi c a f j co = Some (co', ds) /\ canon B ds /\ length ds = (2 * f)%nat /\ 0 <= co' <= Nz * X
   /\ val B ds + 2 ^ (B * Z.of_nat (2 * f)) * co' = colv B (conv a a) j (2 * f) + co.
Proof.
  induction f as [|f IH]; intros j co Hw Hodd HjN Hj Hco.
  - exists co, []. change (2 * 0)%nat with 0%nat. cbn [sqr_hi val length colv]. change (Z.of_nat 0) with 0.
    rewrite Z.mul_0_r, Z.pow_0_r. split; [reflexivity|]. split; [constructor|]. split; [reflexivity|]. split; [exact Hco|lia].
  - cbn [sqr_hi].
    assert (Heven1 : Nat.even (j + 1) = true) by (rewrite Nat.add_1_r, Nat.even_succ, <- Nat.negb_even, Hodd; reflexivity).
    assert (Heven2 : Nat.even (j + 2) = false) by (replace (j + 2)%nat with (S (S j)) by lia; exact Hodd).
    pose proof (half_up j) as U0. pose proof (half_up (j + 1)) as U1.
    pose proof (half_eq j) as E0. pose proof (half_eq (j + 1)) as E1. rewrite Hodd in E0. rewrite Heven1 in E1.
    pose proof (sqr_col_spec a j (j + 1 - N) co Hw eq_refl ltac:(lia) ltac:(lia) Hco) as C1.
    rewrite Hodd in C1. replace (j - (j + 1 - N))%nat with (N - 1)%nat in C1 by lia.
    replace (S (j + 1 - N)) with (j + 2 - N)%nat in C1 by lia. rewrite C1. cbn [bind].
    set (t := conv a a j + co) in *.
    assert (Ht : 0 <= t <= Nz * (X * X)).
    { apply col_bound; try assumption. apply (conv_bound c Hok); [exact (proj2 Hw)|exact (proj2 Hw)|rewrite (proj1 Hw); lia]. }
    destruct (carry_step t Ht) as [Esh Hc1]. rewrite Esh.
    pose proof (sqr_col_spec a (j + 1) (j + 1 + 1 - N) (t / X) Hw eq_refl ltac:(lia) ltac:(lia) Hc1) as C2.
    rewrite Heven1 in C2. replace (j + 1 - (j + 1 + 1 - N))%nat with (N - 1)%nat in C2 by lia.
    replace (S (j + 1 + 1 - N)) with (j + 1 + 2 - N)%nat in C2 by lia. rewrite C2. cbn [bind].
    set (t' := conv a a (j + 1) + t / X) in *.
    assert (Ht' : 0 <= t' <= Nz * (X * X)).
    { apply col_bound; try assumption. apply (conv_bound c Hok); [exact (proj2 Hw)|exact (proj2 Hw)|rewrite (proj1 Hw); lia]. }
    destruct (carry_step t' Ht') as [Esh' Hc2]. rewrite Esh'.
    destruct (IH (j + 2)%nat (t' / X) Hw Heven2 ltac:(lia) ltac:(lia) Hc2) as [co' [ds [H1 [H2 [H3 [H4 H5]]]]]].
    rewrite H1. cbn [bind fst snd]. rewrite !(dlow_mod c Hok).
    eexists co', _. split; [reflexivity|].
    pose proof (Z.mod_pos_bound t X ltac:(lia)) as M1. pose proof (Z.mod_pos_bound t' X ltac:(lia)) as M2.
    split; [constructor; [exact M1|constructor; [exact M2|exact H2]]|].
    split; [cbn [length]; lia|]. split; [exact H4|].
    replace (2 * S f)%nat with (S (S (2 * f))) by lia. cbn [colv val].
    replace (B * Z.of_nat (S (S (2 * f)))) with (B + (B + B * Z.of_nat (2 * f))) by lia.
    rewrite !Z.pow_add_r by lia.
    replace (S (S j)) with (j + 2)%nat by lia. replace (S j) with (j + 1)%nat by lia.
    pose proof (Z.div_mod t X ltac:(lia)) as D. pose proof (Z.div_mod t' X ltac:(lia)) as D'.
    replace (colv B (conv a a) (j + 2) (2 * f)) with (val B ds + 2 ^ (B * Z.of_nat (2 * f)) * co' - t' / X) by lia.
    replace (conv a a j) with (t - co) by (unfold t; lia).
    replace (conv a a (j + 1)) with (t' - t / X) by (unfold t'; lia).
    set (E := 2 ^ (B * Z.of_nat (2 * f))) in *. set (V := val B ds).
    set (q := t / X) in *. set (q' := t' / X) in *. set (r := t mod X) in *. set (r' := t' mod X) in *.
    transitivity ((X * q + r) + X * ((X * q' + r') - q + X * (V + E * co' - q'))); [ring|].
    rewrite <- D, <- D'. ring.
Qed.

Lemma sqr_spec a : big_wf c a ->
  exists r, sqr c a = Some r /\ dbig_wf c r /\ val B r = val B a * val B a.
Proof.
  intros Hw. pose proof (cf_N c F) as HN. pose proof Hw as [La Ha].
  unfold sqr.
  assert (Hp2 : forall i k, 0 <= get a i * get a k <= X * X).
  { intros i k. pose proof (canon_get B a i ltac:(lia) Ha). pose proof (canon_get B a k ltac:(lia) Ha).
    split; [apply Z.mul_nonneg_nonneg|apply Z.mul_le_mono_nonneg]; lia. }
  assert (Hcv : forall k, 0 <= conv a a k <= Nz * ((X - 1) * (X - 1))) by (intros k; apply (conv_bound c Hok); try assumption; lia).
  rewrite pos_bound by (pose proof (Hp2 0%nat 0%nat); lia). cbn [bind].
  set (t := get a 0 * get a 0).
  assert (Et : t = conv a a 0) by (unfold conv, t; cbn [sumf Nat.sub]; lia).
  assert (Ht : 0 <= t <= Nz * (X * X)) by (rewrite Et; pose proof (Hcv 0%nat); lia).
  destruct (carry_step t Ht) as [Esh Hc0]. rewrite Esh.
  set (n1 := ((N - 1) / 2)%nat).
  assert (Hn1 : (2 * n1 = if Nat.even N then N - 2 else N - 1)%nat).
  { unfold n1. destruct (Nat.even N) eqn:EN.
    - apply Nat.even_spec in EN. destruct EN as [h Eh]. rewrite Eh.
      replace (2 * h - 1)%nat with ((h - 1) * 2 + 1)%nat by lia. rewrite Nat.div_add_l by lia. cbn. lia.
    - assert (O : Nat.odd N = true) by (rewrite <- Nat.negb_even, EN; reflexivity).
      apply Nat.odd_spec in O. destruct O as [h Eh]. rewrite Eh.
      replace (2 * h + 1 - 1)%nat with (h * 2)%nat by lia. rewrite Nat.div_mul by lia. lia. }
  destruct (sqr_lo_spec a n1 1 (t / X) Hw eq_refl) as [co1 [ds1 [L1 [L2 [L3 [L4 L5]]]]]].
  { destruct (Nat.even N); lia. } { exact Hc0. }
  rewrite L1. cbn [bind fst snd].
  set (j2 := (N + N mod 2 - 1)%nat).
  assert (Hj2 : (j2 = 2 * n1 + 1)%nat /\ Nat.even j2 = false).
  { assert (Em : (N mod 2 = if Nat.even N then 0 else 1)%nat).
    { destruct (Nat.even N) eqn:EN.
      - apply Nat.even_spec in EN. destruct EN as [h Eh]. rewrite Eh. rewrite Nat.mul_comm. apply Nat.mod_mul. lia.
      - assert (O : Nat.odd N = true) by (rewrite <- Nat.negb_even, EN; reflexivity).
        apply Nat.odd_spec in O. destruct O as [h Eh]. rewrite Eh. rewrite Nat.add_comm, Nat.mul_comm, Nat.mod_add by lia. reflexivity. }
    assert (E : (j2 = 2 * n1 + 1)%nat) by (unfold j2; rewrite Em; destruct (Nat.even N); lia).
    split; [exact E|]. rewrite E. rewrite Nat.even_add, Nat.even_mul. reflexivity. }
  destruct Hj2 as [Hj2 Hj2o].
  set (n2 := ((2 * N - 3 - j2 + 1) / 2)%nat).
  assert (Hn2 : (2 * n2 + 2 * n1 + 4 = 2 * N)%nat).
  { assert (Hn12 : (n1 + 2 <= N)%nat) by (destruct (Nat.even N); lia).
    unfold n2. rewrite Hj2.
    replace (2 * N - 3 - (2 * n1 + 1) + 1)%nat with ((N - 2 - n1) * 2 + 1)%nat by lia.
    rewrite Nat.div_add_l by lia. change (1 / 2)%nat with 0%nat. lia. }
  destruct (sqr_hi_spec a n2 j2 co1 Hw Hj2o) as [co2 [ds2 [K1 [K2 [K3 [K4 K5]]]]]].
  { destruct (Nat.even N); lia. } { lia. } { exact L4. }
  rewrite K1. cbn [bind fst snd].
  rewrite pos_bound by (pose proof (Hp2 (N - 2)%nat (N - 1)%nat); lia). cbn [bind].
  (* column 2N-3 *)
  pose proof (conv_sqr a (2 * N - 3) N La ltac:(lia)) as E3.
  assert (Ev3 : Nat.even (2 * N - 3) = false).
  { replace (2 * N - 3)%nat with (2 * (N - 2) + 1)%nat by lia. rewrite Nat.even_add, Nat.even_mul. reflexivity. }
  rewrite Ev3 in E3. replace (2 * N - 3 + 1 - N)%nat with (N - 2)%nat in E3 by lia.
  replace ((2 * N - 3 + 1) / 2 - (N - 2))%nat with 1%nat in E3.
  2:{ replace (2 * N - 3 + 1)%nat with ((N - 1) * 2)%nat by lia. rewrite Nat.div_mul by lia. lia. }
  cbn [seq suml fold_right] in E3. replace (2 * N - 3 - (N - 2))%nat with (N - 1)%nat in E3 by lia.
  rewrite Z.add_0_r in E3.
  pose proof (conv_sqr a (2 * N - 2) N La ltac:(lia)) as E2.
  assert (Ev2 : Nat.even (2 * N - 2) = true).
  { replace (2 * N - 2)%nat with (2 * (N - 1))%nat by lia. rewrite Nat.even_mul. reflexivity. }
  rewrite Ev2 in E2. replace ((2 * N - 2) / 2)%nat with (N - 1)%nat in E2.
  2:{ replace (2 * N - 2)%nat with ((N - 1) * 2)%nat by lia. rewrite Nat.div_mul by lia. reflexivity. }
  replace ((2 * N - 2 + 1) / 2 - (2 * N - 2 + 1 - N))%nat with 0%nat in E2.
  2:{ replace (2 * N - 2 + 1)%nat with ((N - 1) * 2 + 1)%nat by lia. rewrite Nat.div_add_l by lia. cbn. lia. }
  cbn [seq suml fold_right] in E2. rewrite Z.mul_0_r, Z.add_0_l in E2.
  rewrite Z.add_0_r in E3.
  pose proof (Hcv (2 * N - 3)%nat) as B3. pose proof (Hcv (2 * N - 2)%nat) as B2.
  set (x := get a (N - 2) * get a (N - 1)) in *.
  replace (get a (N - 1) * get a (N - 2)) with x in E3 by (unfold x; ring).
  rewrite pos_bound by lia. cbn [bind]. rewrite pos_bound by lia. cbn [bind].
  rewrite pos_bound by lia. cbn [bind].
  replace (x + x + co2) with (conv a a (2 * N - 3) + co2) by lia.
  set (x3 := conv a a (2 * N - 3) + co2) in *.
  assert (Hx3 : 0 <= x3 <= Nz * (X * X)) by (apply col_bound; assumption).
  destruct (carry_step x3 Hx3) as [Esh3 Hc3]. rewrite Esh3. rewrite <- E2.
  rewrite pos_bound by lia. cbn [bind].
  set (y1 := conv a a (2 * N - 2) + x3 / X) in *.
  assert (Hy1 : 0 <= y1 <= Nz * (X * X)) by (apply col_bound; assumption).
  destruct (carry_step y1 Hy1) as [Eshy Hcy]. rewrite Eshy. rewrite !(dlow_mod c Hok).
  set (pre := t mod X :: ds1 ++ ds2 ++ [x3 mod X; y1 mod X]).
  assert (Hpc : canon B pre).
  { constructor; [apply Z.mod_pos_bound; lia|]. apply Forall_app. split; [exact L2|]. apply Forall_app. split; [exact K2|].
    constructor; [apply Z.mod_pos_bound; lia|]. constructor; [apply Z.mod_pos_bound; lia|constructor]. }
  assert (Hpl : length pre = (2 * N - 1)%nat) by (unfold pre; cbn [length]; rewrite !app_length; cbn [length]; lia).
  assert (Hpv : val B pre + 2 ^ (B * Z.of_nat (2 * N - 1)) * (y1 / X) = val B a * val B a).
  { rewrite <- (colv_conv B a a (2 * N - 1)) by (rewrite La; lia).
    replace (2 * N - 1)%nat with (S (2 * n1 + (2 * n2 + 2)))%nat by lia.
    cbn [colv]. rewrite colv_app by lia. rewrite colv_app by lia. cbn [colv].
    replace (1 + 2 * n1)%nat with j2 by lia.
    replace (j2 + 2 * n2)%nat with (2 * N - 3)%nat by lia.
    replace (S (2 * N - 3)) with (2 * N - 2)%nat by lia.
    unfold pre. cbn [val]. rewrite !val_app by lia. rewrite L3, K3. cbn [val].
    replace (B * Z.of_nat (S (2 * n1 + (2 * n2 + 2)))) with (B + (B * Z.of_nat (2 * n1) + (B * Z.of_nat (2 * n2) + (B + B)))) by lia.
    rewrite !Z.pow_add_r by lia.
    pose proof (Z.div_mod t X ltac:(lia)) as D0. pose proof (Z.div_mod x3 X ltac:(lia)) as D3.
    pose proof (Z.div_mod y1 X ltac:(lia)) as Dy.
    rewrite <- Et.
    set (P1 := 2 ^ (B * Z.of_nat (2 * n1))) in *. set (P2 := 2 ^ (B * Z.of_nat (2 * n2))) in *.
    replace (colv B (conv a a) 1 (2 * n1)) with (val B ds1 + P1 * co1 - t / X) by lia.
    replace (colv B (conv a a) j2 (2 * n2)) with (val B ds2 + P2 * co2 - co1) by lia.
    replace (conv a a (2 * N - 3)) with (x3 - co2) by (unfold x3; lia).
    replace (conv a a (2 * N - 2)) with (y1 - x3 / X) by (unfold y1; lia).
    set (q0 := t / X) in *. set (q3 := x3 / X) in *. set (qy := y1 / X) in *.
    set (r0 := t mod X) in *. set (r3 := x3 mod X) in *. set (ry := y1 mod X) in *.
    clearbody q0 q3 qy r0 r3 ry P1 P2. rewrite D0, D3, Dy. ring. }
  assert (Ra := canon_val B a ltac:(lia) Ha). rewrite La in Ra.
  assert (Hco : 0 <= y1 / X < X).
  { apply (top_digit c Hok pre (y1 / X) (2 * N - 1) (val B a * val B a)); try assumption.
    replace (S (2 * N - 1)) with (N + N)%nat by lia.
    replace (B * Z.of_nat (N + N)) with (B * Z.of_nat N + B * Z.of_nat N) by lia.
    rewrite Z.pow_add_r by lia. split; [apply Z.mul_nonneg_nonneg; lia|]. apply Z.mul_lt_mono_nonneg; lia. }
  rewrite wrap_id by lia.
  eexists; split; [reflexivity|].
  match goal with |- dbig_wf c ?l /\ _ => replace l with (pre ++ [y1 / X])
     by (unfold pre; rewrite <- app_comm_cons, <- !app_assoc; reflexivity) end.
  split; [split|].
  - rewrite app_length, Hpl. cbn [length]. unfold DNLEN. lia.
  - apply Forall_app. split; [exact Hpc|]. constructor; [exact Hco|constructor].
  - rewrite val_app, Hpl by lia. cbn [val]. rewrite Z.mul_0_r, Z.add_0_r. exact Hpv.
Qed.
End WithCfg.
