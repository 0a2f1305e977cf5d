(** Big::sqr when the operand has un-normalised, possibly negative limbs: |limb| < g * 2^BASEBITS. *)
From Verif Require Import Base.Word Model.Big Spec.BigSpec Proof.BigVal Proof.BigMul Proof.BigMulW Proof.BigSqr.
From Coq Require Import Lia.

Lemma tops a n : length a = n -> (2 <= n)%nat -> conv a a (2 * n - 3) = 2 * (get a (n - 2) * get a (n - 1)) /\ conv a a (2 * n - 2) = get a (n - 1) * get a (n - 1).
Proof.
  intros La HN. split.
  - pose proof (conv_sqr a (2 * n - 3) n La ltac:(lia)) as E3.
    assert (Ev3 : Nat.even (2 * n - 3) = false).
    { replace (2 * n - 3)%nat with (2 * (n - 2) + 1)%nat by lia. rewrite Nat.even_add, Nat.even_mul. reflexivity. }
    rewrite Ev3 in E3. replace (2 * n - 3 + 1 - n)%nat with (n - 2)%nat in E3 by lia.
    replace ((2 * n - 3 + 1) / 2 - (n - 2))%nat with 1%nat in E3.
    2:{ replace (2 * n - 3 + 1)%nat with ((n - 1) * 2)%nat by lia. rewrite Nat.div_mul by lia. lia. }
    cbn [seq suml fold_right] in E3. replace (2 * n - 3 - (n - 2))%nat with (n - 1)%nat in E3 by lia. rewrite E3. ring.
  - pose proof (conv_sqr a (2 * n - 2) n La ltac:(lia)) as E2.
    assert (Ev2 : Nat.even (2 * n - 2) = true).
    { replace (2 * n - 2)%nat with (2 * (n - 1))%nat by lia. rewrite Nat.even_mul. reflexivity. }
    rewrite Ev2 in E2. replace ((2 * n - 2) / 2)%nat with (n - 1)%nat in E2.
    2:{ replace (2 * n - 2)%nat with ((n - 1) * 2)%nat by lia. rewrite Nat.div_mul by lia. reflexivity. }
    replace ((2 * n - 2 + 1) / 2 - (2 * n - 2 + 1 - n))%nat with 0%nat in E2.
    2:{ replace (2 * n - 2 + 1)%nat with ((n - 1) * 2 + 1)%nat by lia. rewrite Nat.div_add_l by lia. cbn. lia. }
    cbn [seq suml fold_right] in E2. rewrite E2. ring.
Qed.
Ltac nlia := repeat match goal with H : ?T |- _ => lazymatch T with @eq nat _ _ => fail | (_ <= _)%nat => fail | (_ < _)%nat => fail | nat => fail | cfg => fail | _ => clear H end end; lia.

Section Wide.
Variable c : cfg.
Hypothesis Hok : cfg_ok c.
Notation B := (BASEBITS c).
Notation C := (CHUNK c).
Notation N := (NLEN c).
Notation X := (2 ^ BASEBITS c).
Let F := cfg_ok_facts c Hok.
Let HB : 8 <= B. Proof. pose proof (cf_B c F); lia. Qed.
Let HX : 65536 <= X.
Proof. change 65536 with (2 ^ 16). apply pow2_le. pose proof (cf_B c F); lia. Qed.
Variable g : Z.
Hypothesis Hg : 1 <= g.
Notation M := (g * g * (X * X)).
Notation n3 := (Z.of_nat N).
Notation CB := (2 * (n3 * (g * g * X)) + 2).
Hypothesis Hcol : n3 * M + 2 * (n3 * (g * g * X)) + 2 < 2 ^ (2 * C - 1).
Notation wide := (wideg c g).
Let M0 : 0 <= M. Proof. apply Z.mul_nonneg_nonneg; [apply Z.mul_nonneg_nonneg; lia|apply Z.mul_nonneg_nonneg; lia]. Qed.
Let CB0 : 0 <= CB. Proof. assert (0 <= n3 * (g * g * X)) by (apply Z.mul_nonneg_nonneg; [lia|apply Z.mul_nonneg_nonneg; [apply Z.mul_nonneg_nonneg; lia|lia]]). lia. Qed.
Lemma bbw t : Z.abs t <= n3 * M + CB -> chk (2 * C) t = Some t.
Proof. intros H. apply chk_ok. lia. Qed.
Lemma pw a i k : wide a -> Z.abs (get a i * get a k) <= M.
Proof.
  intros H. pose proof (wget c Hok g a i Hg H) as A. pose proof (wget c Hok g a k Hg H) as D.
  rewrite Z.abs_mul. replace M with (g * X * (g * X)) by ring. apply Z.mul_le_mono_nonneg; lia.
Qed.
Lemma termsw a j is : forall t k, wide a -> 0 <= k -> Z.abs t <= k * M -> k + Z.of_nat (length is) <= n3 ->
  sqr_terms c a j is t = Some (t + suml (fun i => get a (j - i) * get a i) is) /\ Z.abs (t + suml (fun i => get a (j - i) * get a i) is) <= (k + Z.of_nat (length is)) * M.
Proof.
  induction is as [|i is IH]; intros t k Ha Hk Ht Hl.
  - cbn [sqr_terms suml fold_right length]. rewrite Z.add_0_r. split; [reflexivity|]. change (Z.of_nat 0) with 0. rewrite Z.add_0_r. exact Ht.
  - cbn [sqr_terms suml fold_right length] in *. rewrite Nat2Z.inj_succ in *. pose proof (pw a (j - i) i Ha) as P.
    assert (K1 : (k + 1) * M <= n3 * M) by (apply Z.mul_le_mono_nonneg_r; lia).
    destruct (IH (t + get a (j - i) * get a i) (k + 1) Ha ltac:(lia) ltac:(lia) ltac:(lia)) as [E1 E2].
    assert (K2 : 1 * M <= n3 * M) by (apply Z.mul_le_mono_nonneg_r; lia).
    rewrite bbw by lia. cbn [bind]. rewrite bbw by lia. cbn [bind]. fold (suml (fun i => get a (j - i) * get a i) is).
    rewrite E1. split; [f_equal; lia|]. rewrite <- Z.add_assoc in E2. replace (k + Z.succ (Z.of_nat (length is))) with (k + 1 + Z.of_nat (length is)) by lia. exact E2.
Qed.
Lemma colw a j lo co : length a = N -> wide a -> lo = (j + 1 - N)%nat -> (S lo <= (j + 1) / 2)%nat -> (j + 1 <= 2 * N)%nat -> Z.abs co <= CB ->
  sqr_col c a j (j - lo) lo (seq (S lo) ((j + 1) / 2 - S lo)) (Nat.even j) co = Some (conv a a j + co).
Proof.
  intros La Ha Hlo Hlo2 Hj Hco. pose proof (conv_sqr a j N La Hj) as E. rewrite <- Hlo in E.
  replace ((j + 1) / 2 - lo)%nat with (S ((j + 1) / 2 - S lo)) in E by lia. cbn [seq suml fold_right] in E.
  fold (suml (fun i => get a (j - i) * get a i) (seq (S lo) ((j + 1) / 2 - S lo))) in E.
  pose proof (half_up j) as U. pose proof (half_eq j) as UH. set (n := ((j + 1) / 2 - S lo)%nat) in *.
  assert (Cn : 2 * (Z.of_nat n + 1) + (if Nat.even j then 1 else 0) <= n3) by (destruct (Nat.even j); unfold n in *; lia).
  unfold sqr_col. pose proof (pw a (j - lo) lo Ha) as P. set (p := get a (j - lo) * get a lo) in *.
  assert (K2 : 1 * M <= n3 * M) by (apply Z.mul_le_mono_nonneg_r; destruct (Nat.even j); lia). rewrite bbw by lia. cbn [bind].
  destruct (termsw a j (seq (S lo) n) p 1 Ha ltac:(lia) ltac:(lia)) as [T1 T2]. { rewrite seq_length. destruct (Nat.even j); lia. }
  rewrite T1. cbn [bind]. rewrite seq_length in T2. set (S1 := suml (fun i => get a (j - i) * get a i) (seq (S lo) n)) in *.
  assert (K3 : (2 * (Z.of_nat n + 1) + (if Nat.even j then 1 else 0)) * M <= n3 * M) by (apply Z.mul_le_mono_nonneg_r; lia).
  assert (K4 : 2 * ((1 + Z.of_nat n) * M) + (if Nat.even j then 1 else 0) * M <= n3 * M) by (eapply Z.le_trans; [|exact K3]; apply Z.eq_le_incl; ring).
  assert (K5 : 0 <= (if Nat.even j then 1 else 0) * M) by (destruct (Nat.even j); lia).
  rewrite bbw by lia. cbn [bind]. rewrite bbw by lia. cbn [bind].
  destruct (Nat.even j).
  - pose proof (pw a (j / 2) (j / 2) Ha) as PM. rewrite bbw by lia. cbn [bind]. rewrite bbw by lia. f_equal. lia.
  - f_equal. lia.
Qed.
Lemma cvw a k : length a = N -> wide a -> Z.abs (conv a a k) <= n3 * M.
Proof. intros La Ha. apply (cconv c Hok g g Hg Hg a a k La Ha Ha). Qed.
Lemma carw t co k : Z.abs k <= n3 * M -> Z.abs co <= CB -> t = k + co -> Z.shiftr t B = t / X /\ Z.abs (t / X) <= CB.
Proof. intros H1 H2 H3. split; [apply Z.shiftr_div_pow2; lia|]. apply (carry c Hok g g Hg Hg t co k H1 H2 H3). Qed.

Lemma low a f : forall j co, length a = N -> wide a -> Nat.even j = false -> (j + 2 * f <= N)%nat -> Z.abs co <= CB ->
  exists co' ds, sqr_lo c a f j co = Some (co', ds) /\ canon B ds /\ length ds = (2 * f)%nat /\ Z.abs co' <= CB
   /\ val B ds + 2 ^ (B * Z.of_nat (2 * f)) * co' = colv B (conv a a) j (2 * f) + co.
Proof.
  induction f as [|f IH]; intros j co La Ha Hodd Hj Hco.
  - exists co, []. change (2 * 0)%nat with 0%nat. cbn [sqr_lo val length colv]. change (Z.of_nat 0) with 0.
    rewrite Z.mul_0_r, Z.pow_0_r. split; [reflexivity|]. split; [constructor|]. split; [reflexivity|]. split; [exact Hco|lia].
  - cbn [sqr_lo].
    assert (Hj1 : (1 <= j)%nat) by (destruct j; [discriminate|lia]).
    assert (Heven1 : Nat.even (j + 1) = true) by (rewrite Nat.add_1_r, Nat.even_succ, <- Nat.negb_even, Hodd; reflexivity).
    assert (Heven2 : Nat.even (j + 2) = false) by (replace (j + 2)%nat with (S (S j)) by lia; exact Hodd).
    pose proof (half_up j) as U0. pose proof (half_up (j + 1)) as U1.
    pose proof (half_eq j) as E0. pose proof (half_eq (j + 1)) as E1. rewrite Hodd in E0. rewrite Heven1 in E1.
    pose proof (colw a j 0 co La Ha ltac:(lia) ltac:(lia) ltac:(lia) Hco) as C1.
    rewrite Nat.sub_0_r, Hodd in C1. rewrite C1. cbn [bind].
    set (t := conv a a j + co) in *.
    destruct (carw t co _ (cvw a j La Ha) Hco eq_refl) as [Esh Hc1]. rewrite Esh.
    pose proof (colw a (j + 1) 0 (t / X) La Ha ltac:(lia) ltac:(lia) ltac:(lia) Hc1) as C2.
    rewrite Nat.sub_0_r, Heven1 in C2. replace (j + 1 + 1)%nat with (j + 2)%nat in C2 by lia. rewrite C2. cbn [bind].
    set (t' := conv a a (j + 1) + t / X) in *.
    destruct (carw t' (t / X) _ (cvw a (j + 1) La Ha) Hc1 eq_refl) as [Esh' Hc2]. rewrite Esh'.
    destruct (IH (j + 2)%nat (t' / X) La Ha Heven2 ltac:(lia) Hc2) as [co' [ds [H1 [H2 [H3 [H4 H5]]]]]].
    rewrite H1. cbn [bind fst snd]. rewrite !(dlow_mod c Hok).
    eexists co', _. split; [reflexivity|].
    pose proof (Z.mod_pos_bound t X ltac:(lia)) as M1. pose proof (Z.mod_pos_bound t' X ltac:(lia)) as M2.
    split; [constructor; [exact M1|constructor; [exact M2|exact H2]]|].
    split; [cbn [length]; lia|]. split; [exact H4|].
    replace (2 * S f)%nat with (S (S (2 * f))) by lia. cbn [colv val].
    replace (B * Z.of_nat (S (S (2 * f)))) with (B + (B + B * Z.of_nat (2 * f))) by lia.
    rewrite !Z.pow_add_r by lia.
    replace (S (S j)) with (j + 2)%nat by lia. replace (S j) with (j + 1)%nat by lia.
    pose proof (Z.div_mod t X ltac:(lia)) as D. pose proof (Z.div_mod t' X ltac:(lia)) as D'.
    replace (colv B (conv a a) (j + 2) (2 * f)) with (val B ds + 2 ^ (B * Z.of_nat (2 * f)) * co' - t' / X) by lia.
    replace (conv a a j) with (t - co) by (unfold t; lia).
    replace (conv a a (j + 1)) with (t' - t / X) by (unfold t'; lia).
    set (E := 2 ^ (B * Z.of_nat (2 * f))) in *. set (V := val B ds).
    set (q := t / X) in *. set (q' := t' / X) in *. set (r := t mod X) in *. set (r' := t' mod X) in *.
    transitivity ((X * q + r) + X * ((X * q' + r') - q + X * (V + E * co' - q'))); [ring|].
    rewrite <- D, <- D'. ring.
Qed.
Lemma hiw a f : forall j co, length a = N -> wide a -> Nat.even j = false -> (N <= j + 1)%nat -> (j + 2 * f + 3 <= 2 * N)%nat -> Z.abs co <= CB ->
  exists co' ds, sqr_hi c a f j co = Some (co', ds) /\ canon B ds /\ length ds = (2 * f)%nat /\ Z.abs co' <= CB
   /\ val B ds + 2 ^ (B * Z.of_nat (2 * f)) * co' = colv B (conv a a) j (2 * f) + co.
Proof.
  induction f as [|f IH]; intros j co La Ha Hodd HjN Hj Hco.
  - exists co, []. change (2 * 0)%nat with 0%nat. cbn [sqr_hi val length colv]. change (Z.of_nat 0) with 0.
    rewrite Z.mul_0_r, Z.pow_0_r. split; [reflexivity|]. split; [constructor|]. split; [reflexivity|]. split; [exact Hco|lia].
  - cbn [sqr_hi].
    assert (Heven1 : Nat.even (j + 1) = true) by (rewrite Nat.add_1_r, Nat.even_succ, <- Nat.negb_even, Hodd; reflexivity).
    assert (Heven2 : Nat.even (j + 2) = false) by (replace (j + 2)%nat with (S (S j)) by lia; exact Hodd).
    pose proof (half_up j) as U0. pose proof (half_up (j + 1)) as U1.
    pose proof (half_eq j) as E0. pose proof (half_eq (j + 1)) as E1. rewrite Hodd in E0. rewrite Heven1 in E1.
    pose proof (colw a j (j + 1 - N) co La Ha eq_refl ltac:(lia) ltac:(lia) Hco) as C1.
    rewrite Hodd in C1. replace (j - (j + 1 - N))%nat with (N - 1)%nat in C1 by lia.
    replace (S (j + 1 - N)) with (j + 2 - N)%nat in C1 by lia. rewrite C1. cbn [bind].
    set (t := conv a a j + co) in *.
    destruct (carw t co _ (cvw a j La Ha) Hco eq_refl) as [Esh Hc1]. rewrite Esh.
    pose proof (colw a (j + 1) (j + 1 + 1 - N) (t / X) La Ha eq_refl ltac:(lia) ltac:(lia) Hc1) as C2.
    rewrite Heven1 in C2. replace (j + 1 - (j + 1 + 1 - N))%nat with (N - 1)%nat in C2 by lia.
    replace (S (j + 1 + 1 - N)) with (j + 1 + 2 - N)%nat in C2 by lia. rewrite C2. cbn [bind].
    set (t' := conv a a (j + 1) + t / X) in *.
    destruct (carw t' (t / X) _ (cvw a (j + 1) La Ha) Hc1 eq_refl) as [Esh' Hc2]. rewrite Esh'.
    destruct (IH (j + 2)%nat (t' / X) La Ha Heven2 ltac:(lia) ltac:(lia) Hc2) as [co' [ds [H1 [H2 [H3 [H4 H5]]]]]].
    rewrite H1. cbn [bind fst snd]. rewrite !(dlow_mod c Hok).
    eexists co', _. split; [reflexivity|].
    pose proof (Z.mod_pos_bound t X ltac:(lia)) as M1. pose proof (Z.mod_pos_bound t' X ltac:(lia)) as M2.
    split; [constructor; [exact M1|constructor; [exact M2|exact H2]]|].
    split; [cbn [length]; lia|]. split; [exact H4|].
    replace (2 * S f)%nat with (S (S (2 * f))) by lia. cbn [colv val].
    replace (B * Z.of_nat (S (S (2 * f)))) with (B + (B + B * Z.of_nat (2 * f))) by lia.
    rewrite !Z.pow_add_r by lia.
    replace (S (S j)) with (j + 2)%nat by lia. replace (S j) with (j + 1)%nat by lia.
    pose proof (Z.div_mod t X ltac:(lia)) as D. pose proof (Z.div_mod t' X ltac:(lia)) as D'.
    replace (colv B (conv a a) (j + 2) (2 * f)) with (val B ds + 2 ^ (B * Z.of_nat (2 * f)) * co' - t' / X) by lia.
    replace (conv a a j) with (t - co) by (unfold t; lia).
    replace (conv a a (j + 1)) with (t' - t / X) by (unfold t'; lia).
    set (E := 2 ^ (B * Z.of_nat (2 * f))) in *. set (V := val B ds).
    set (q := t / X) in *. set (q' := t' / X) in *. set (r := t mod X) in *. set (r' := t' mod X) in *.
    transitivity ((X * q + r) + X * ((X * q' + r') - q + X * (V + E * co' - q'))); [ring|].
    rewrite <- D, <- D'. ring.
Qed.

Theorem sqr_wide a : length a = N -> wide a -> 0 <= val B a < 2 ^ (B * Z.of_nat N) ->
  exists r, sqr c a = Some r /\ dbig_wf c r /\ val B r = val B a * val B a.
Proof.
  intros La Ha Ra. pose proof (cf_N c F) as HN. unfold sqr.
  assert (K2 : 2 * M <= n3 * M) by (apply Z.mul_le_mono_nonneg_r; lia).
  rewrite bbw by (pose proof (pw a 0 0 Ha); lia). cbn [bind].
  set (t := get a 0 * get a 0).
  assert (Et : t = conv a a 0) by (unfold conv, t; cbn [sumf Nat.sub]; lia).
  destruct (carw t 0 _ (cvw a 0 La Ha) ltac:(lia) ltac:(lia)) as [Esh Hc0]. rewrite Esh.
  set (n1 := ((N - 1) / 2)%nat).
  assert (Hn1 : (2 * n1 = if Nat.even N then N - 2 else N - 1)%nat).
  { unfold n1. destruct (Nat.even N) eqn:EN.
    - apply Nat.even_spec in EN. destruct EN as [h Eh]. rewrite Eh.
      replace (2 * h - 1)%nat with ((h - 1) * 2 + 1)%nat by nlia. rewrite Nat.div_add_l by nlia. cbn. lia.
    - assert (O : Nat.odd N = true) by (rewrite <- Nat.negb_even, EN; reflexivity).
      apply Nat.odd_spec in O. destruct O as [h Eh]. rewrite Eh.
      replace (2 * h + 1 - 1)%nat with (h * 2)%nat by nlia. rewrite Nat.div_mul by lia. lia. }
  destruct (low a n1 1 (t / X) La Ha eq_refl) as [co1 [ds1 [L1 [L2 [L3 [L4 L5]]]]]].
  { destruct (Nat.even N); nlia. } { exact Hc0. }
  rewrite L1. cbn [bind fst snd].
  set (j2 := (N + N mod 2 - 1)%nat).
  assert (Hj2 : (j2 = 2 * n1 + 1)%nat /\ Nat.even j2 = false).
  { assert (Em : (N mod 2 = if Nat.even N then 0 else 1)%nat).
    { destruct (Nat.even N) eqn:EN.
      - apply Nat.even_spec in EN. destruct EN as [h Eh]. rewrite Eh. rewrite Nat.mul_comm. apply Nat.mod_mul. lia.
      - assert (O : Nat.odd N = true) by (rewrite <- Nat.negb_even, EN; reflexivity).
        apply Nat.odd_spec in O. destruct O as [h Eh]. rewrite Eh. rewrite Nat.add_comm, Nat.mul_comm, Nat.mod_add by lia. reflexivity. }
    assert (E : (j2 = 2 * n1 + 1)%nat) by (unfold j2; rewrite Em; destruct (Nat.even N); nlia).
    split; [exact E|]. rewrite E. rewrite Nat.even_add, Nat.even_mul. reflexivity. }
  destruct Hj2 as [Hj2 Hj2o].
  set (n2 := ((2 * N - 3 - j2 + 1) / 2)%nat).
  assert (Hn2 : (2 * n2 + 2 * n1 + 4 = 2 * N)%nat).
  { assert (Hn12 : (n1 + 2 <= N)%nat) by (destruct (Nat.even N); nlia).
    unfold n2. rewrite Hj2.
    replace (2 * N - 3 - (2 * n1 + 1) + 1)%nat with ((N - 2 - n1) * 2 + 1)%nat by nlia.
    rewrite Nat.div_add_l by nlia. change (1 / 2)%nat with 0%nat. nlia. }
  destruct (hiw a n2 j2 co1 La Ha Hj2o) as [co2 [ds2 [K1 [K2' [K3 [K4 K5]]]]]].
  { destruct (Nat.even N); nlia. } { nlia. } { exact L4. }
  rewrite K1. cbn [bind fst snd].
  pose proof (pw a (N - 2) (N - 1) Ha) as P3. pose proof (pw a (N - 1) (N - 1) Ha) as P4.
  rewrite bbw by lia. cbn [bind].
  destruct (tops a N La HN) as [E3 E2].
  set (x := get a (N - 2) * get a (N - 1)) in *.
  rewrite bbw by lia. cbn [bind]. rewrite bbw by lia. cbn [bind].
  rewrite bbw by lia. cbn [bind].
  replace (x + x + co2) with (conv a a (2 * N - 3) + co2) by lia.
  set (x3 := conv a a (2 * N - 3) + co2) in *.
  destruct (carw x3 co2 _ (cvw a (2 * N - 3) La Ha) K4 eq_refl) as [Esh3 Hc3]. rewrite Esh3. rewrite <- E2.
  pose proof (cvw a (2 * N - 2) La Ha) as B2.
  rewrite bbw by lia. cbn [bind].
  set (y1 := conv a a (2 * N - 2) + x3 / X) in *.
  destruct (carw y1 (x3 / X) _ B2 Hc3 eq_refl) as [Eshy Hcy]. rewrite Eshy. rewrite !(dlow_mod c Hok).
  set (pre := t mod X :: ds1 ++ ds2 ++ [x3 mod X; y1 mod X]).
  assert (Hpc : canon B pre).
  { constructor; [apply Z.mod_pos_bound; lia|]. apply Forall_app. split; [exact L2|]. apply Forall_app. split; [exact K2'|].
    constructor; [apply Z.mod_pos_bound; lia|]. constructor; [apply Z.mod_pos_bound; lia|constructor]. }
  assert (Hpl : length pre = (2 * N - 1)%nat) by (unfold pre; cbn [length]; rewrite !app_length; cbn [length]; nlia).
  assert (Hpv : val B pre + 2 ^ (B * Z.of_nat (2 * N - 1)) * (y1 / X) = val B a * val B a).
  { clear K2 P3 P4 B2 Hc0 L4 K4 Hc3 Hcy M0 CB0 Hcol E2 E3. rewrite <- (colv_conv B a a (2 * N - 1)) by (rewrite La; nlia).
    replace (2 * N - 1)%nat with (S (2 * n1 + (2 * n2 + 2)))%nat by nlia.
    cbn [colv]. rewrite colv_app by lia. rewrite colv_app by lia. cbn [colv].
    replace (1 + 2 * n1)%nat with j2 by nlia.
    replace (j2 + 2 * n2)%nat with (2 * N - 3)%nat by nlia.
    replace (S (2 * N - 3)) with (2 * N - 2)%nat by lia.
    unfold pre. cbn [val]. rewrite !val_app by lia. rewrite L3, K3. cbn [val].
    replace (B * Z.of_nat (S (2 * n1 + (2 * n2 + 2)))) with (B + (B * Z.of_nat (2 * n1) + (B * Z.of_nat (2 * n2) + (B + B)))) by lia.
    rewrite !Z.pow_add_r by lia.
    pose proof (Z.div_mod t X ltac:(lia)) as D0. pose proof (Z.div_mod x3 X ltac:(lia)) as D3.
    pose proof (Z.div_mod y1 X ltac:(lia)) as Dy.
    rewrite <- Et.
    set (P1 := 2 ^ (B * Z.of_nat (2 * n1))) in *. set (P2 := 2 ^ (B * Z.of_nat (2 * n2))) in *.
    replace (colv B (conv a a) 1 (2 * n1)) with (val B ds1 + P1 * co1 - t / X) by lia.
    replace (colv B (conv a a) j2 (2 * n2)) with (val B ds2 + P2 * co2 - co1) by lia.
    replace (conv a a (2 * N - 3)) with (x3 - co2) by (unfold x3; lia).
    replace (conv a a (2 * N - 2)) with (y1 - x3 / X) by (unfold y1; lia).
    set (q0 := t / X) in *. set (q3 := x3 / X) in *. set (qy := y1 / X) in *.
    set (r0 := t mod X) in *. set (r3 := x3 mod X) in *. set (ry := y1 mod X) in *.
    clearbody q0 q3 qy r0 r3 ry P1 P2. rewrite D0, D3, Dy. ring. }
  assert (Hco : 0 <= y1 / X < X).
  { clear K2 P3 P4 B2 Hc0 L4 K4 Hc3 Hcy M0 CB0 Hcol E2 E3. apply (top_digit c Hok pre (y1 / X) (2 * N - 1) (val B a * val B a)); try assumption.
    replace (S (2 * N - 1)) with (N + N)%nat by lia.
    replace (B * Z.of_nat (N + N)) with (B * Z.of_nat N + B * Z.of_nat N) by lia.
    rewrite Z.pow_add_r by lia. split; [apply Z.mul_nonneg_nonneg; lia|]. apply Z.mul_lt_mono_nonneg; lia. }
  clear K2 P3 P4 B2 Hc0 L4 K4 Hc3 Hcy M0 CB0 Hcol E2 E3. assert (HXC : X <= 2 ^ (C - 1)) by (apply pow2_le; pose proof (cf_C c F); lia).
  rewrite wrap_id by (pose proof (cf_C c F); lia).
  eexists; split; [reflexivity|].
  match goal with |- dbig_wf c ?l /\ _ => replace l with (pre ++ [y1 / X])
     by (unfold pre; rewrite <- app_comm_cons, <- !app_assoc; reflexivity) end.
  split; [split|].
  - rewrite app_length, Hpl. cbn [length]. unfold DNLEN. lia.
  - apply Forall_app. split; [exact Hpc|]. constructor; [exact Hco|constructor].
  - rewrite val_app, Hpl by lia. cbn [val]. rewrite Z.mul_0_r, Z.add_0_r. exact Hpv.
Qed.
End Wide.
