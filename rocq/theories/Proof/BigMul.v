(** Column-wise multiplication, squaring and Montgomery reduction. *)
From Verif Require Import Base.Word Model.Big Spec.BigSpec Proof.BigVal Proof.BigShift.
Require Import Psatz.

(** ** sums *)
Fixpoint sumf (f : nat -> Z) (n : nat) : Z := match n with O => 0 | S m => sumf f m + f m end.
Definition suml (f : nat -> Z) (l : list nat) : Z := fold_right (fun i s => f i + s) 0 l.

Lemma suml_app f a b : suml f (a ++ b) = suml f a + suml f b.
Proof. unfold suml. induction a as [|x a IH]; cbn [app fold_right]; lia. Qed.
Lemma suml_ext f g l : (forall i, In i l -> f i = g i) -> suml f l = suml g l.
Proof.
  induction l as [|x l IH]; intros H; cbn; [reflexivity|].
  rewrite (H x) by (left; reflexivity). f_equal. apply IH. intros i Hi. apply H. right. exact Hi.
Qed.
Lemma suml_add f g l : suml (fun i => f i + g i) l = suml f l + suml g l.
Proof. unfold suml. induction l as [|x l IH]; cbn [fold_right]; lia. Qed.
Lemma suml_zero f l : (forall i, In i l -> f i = 0) -> suml f l = 0.
Proof.
  induction l as [|x l IH]; intros H; cbn; [reflexivity|].
  rewrite (H x) by (left; reflexivity). rewrite Z.add_0_l. apply IH. intros i Hi. apply H. right. exact Hi.
Qed.
Lemma sumf_split f m n : sumf f (m + n) = sumf f m + suml f (seq m n).
Proof.
  revert m. induction n as [|n IH]; intros m; [rewrite Nat.add_0_r; cbn; lia|].
  cbn [seq suml fold_right]. replace (m + S n)%nat with (S m + n)%nat by lia.
  rewrite IH. cbn [sumf]. unfold suml. lia.
Qed.
Lemma sumf_ext f g n : (forall i, (i < n)%nat -> f i = g i) -> sumf f n = sumf g n.
Proof.
  induction n as [|n IH]; intros H; cbn; [reflexivity|].
  rewrite IH by (intros i Hi; apply H; lia). rewrite H by lia. reflexivity.
Qed.
Lemma suml_rev f k n : (n <= S k)%nat -> suml (fun i => f (k - i)%nat) (seq (S k - n) n) = sumf f n.
Proof.
  induction n as [|n IH]; intros H; [reflexivity|].
  cbn [seq suml fold_right sumf]. 
  replace (S (S k - S n)) with (S k - n)%nat by lia.
  replace (k - (S k - S n))%nat with n by lia.
  fold (suml (fun i => f (k - i)%nat) (seq (S k - n) n)). rewrite IH by lia. lia.
Qed.

Definition midf (f : nat -> Z) (k : nat) : Z := if Nat.even k then f (k / 2)%nat else 0.

Lemma half_eq k : (k - k / 2 = if Nat.even k then k / 2 else S (k / 2))%nat.
Proof.
  destruct (Nat.even k) eqn:E.
  - apply Nat.even_spec in E. destruct E as [h ->]. rewrite Nat.mul_comm, Nat.div_mul by lia. lia.
  - assert (O : Nat.odd k = true) by (rewrite <- Nat.negb_even, E; reflexivity).
    apply Nat.odd_spec in O. destruct O as [h ->].
    replace ((2 * h + 1) / 2)%nat with h; [lia|].
    rewrite Nat.mul_comm, Nat.div_add_l by lia. cbn. lia.
Qed.

(** pairing i with k-i *)
Lemma pairing f k :
  sumf f (S k) = suml (fun i => f i + f (k - i)%nat) (seq (1 + k / 2) (k - k / 2)) + midf f k.
Proof.
  rewrite suml_add.
  pose proof (half_eq k) as Hh. assert (Hk : (k / 2 <= k)%nat) by (apply Nat.div_le_upper_bound; lia).
  set (h := (k / 2)%nat) in *. set (n := (k - h)%nat) in *.
  replace (1 + h)%nat with (S k - n)%nat by lia. rewrite suml_rev by lia.
  unfold midf. fold h. destruct (Nat.even k).
  - replace (S k - n)%nat with (S h) by lia.
    assert (Ek : (S k = S h + n)%nat) by lia. rewrite Ek, sumf_split. cbn [sumf].
    assert (En : n = h) by lia. rewrite En. lia.
  - replace (S k - n)%nat with n by lia.
    assert (Ek : (S k = n + n)%nat) by lia. rewrite Ek, sumf_split. lia.
Qed.

(** ** convolution *)
Definition conv (a b : list Z) (k : nat) : Z := sumf (fun i => get a i * get b (k - i)) (S k).

Section B.
Variable B : Z.
Hypothesis HB0 : 0 <= B.

Fixpoint colv (f : nat -> Z) (j n : nat) : Z :=
  match n with O => 0 | S m => f j + 2 ^ B * colv f (S j) m end.

Lemma colv_ext f g j n : (forall i, (j <= i < j + n)%nat -> f i = g i) -> colv f j n = colv g j n.
Proof.
  revert j. induction n as [|n IH]; intros j H; cbn; [reflexivity|].
  rewrite H by lia. f_equal. f_equal. apply IH. intros i Hi. apply H. lia.
Qed.
Lemma colv_add f g j n : colv (fun i => f i + g i) j n = colv f j n + colv g j n.
Proof. revert j. induction n as [|n IH]; intros j; cbn; [reflexivity|]. rewrite IH. ring. Qed.
Lemma colv_scale x f j n : colv (fun i => x * f i) j n = x * colv f j n.
Proof. revert j. induction n as [|n IH]; intros j; cbn; [ring|]. rewrite IH. ring. Qed.
Lemma colv_shift f j n : colv (fun i => f (S i)) j n = colv f (S j) n.
Proof. revert j. induction n as [|n IH]; intros j; cbn; [reflexivity|]. rewrite IH. reflexivity. Qed.
Lemma colv_app f j n m : colv f j (n + m) = colv f j n + 2 ^ (B * Z.of_nat n) * colv f (j + n) m.
Proof.
  revert j. induction n as [|n IH]; intros j.
  - cbn [plus colv]. rewrite Z.mul_0_r, Z.pow_0_r, Nat.add_0_r. lia.
  - cbn [plus colv]. rewrite IH. replace (B * Z.of_nat (S n)) with (B + B * Z.of_nat n) by lia.
    rewrite Z.pow_add_r by nia. replace (S j + n)%nat with (j + S n)%nat by lia. ring.
Qed.
Lemma colv_get w n : (length w <= n)%nat -> colv (get w) 0 n = val B w.
Proof.
  revert n. induction w as [|x t IH]; intros n H.
  - clear H. generalize O. induction n as [|n IH]; intros j; [reflexivity|].
    cbn [colv]. rewrite IH. unfold get. destruct j; cbn [nth val]; lia.
  - destruct n as [|n]; [cbn in H; lia|]. cbn [length] in H. cbn [colv val].
    change (get (x :: t) 0) with x. f_equal. f_equal. rewrite <- (IH n) by lia.
    rewrite <- (colv_shift (get (x :: t))). apply colv_ext. intros i _. reflexivity.
Qed.

Lemma conv_nil b k : conv [] b k = 0.
Proof.
  unfold conv. generalize (S k). intros n. induction n as [|n IH]; [reflexivity|].
  cbn [sumf]. rewrite IH. unfold get. destruct n; cbn; lia.
Qed.
Lemma sumf_first f n : sumf f (S n) = f O + sumf (fun i => f (S i)) n.
Proof. induction n as [|n IH]; [cbn; lia|]. cbn [sumf] in *. rewrite IH. lia. Qed.
Lemma conv_cons_S x a b k : conv (x :: a) b (S k) = x * get b (S k) + conv a b k.
Proof.
  unfold conv. rewrite sumf_first. cbn [get nth Nat.sub]. f_equal.
Qed.
Lemma conv_cons_0 x a b : conv (x :: a) b 0 = x * get b 0.
Proof. unfold conv. cbn [sumf get nth Nat.sub]. unfold get. cbn. lia. Qed.

Lemma colv_conv a b M : (length a + length b <= S M)%nat -> colv (conv a b) 0 M = val B a * val B b.
Proof.
  revert M. induction a as [|x a IH]; intros M HM.
  - cbn [val]. clear HM. generalize O. induction M as [|M IH]; intros j; [reflexivity|].
    cbn [colv]. rewrite conv_nil, IH. lia.
  - cbn [length] in HM. destruct M as [|M].
    + destruct a; [|cbn in HM; lia]. destruct b; [|cbn in HM; lia]. cbn. lia.
    + cbn [colv]. rewrite conv_cons_0. rewrite <- (colv_shift (conv (x :: a) b)).
      rewrite (colv_ext _ (fun k => x * get b (S k) + conv a b k)) by (intros; apply conv_cons_S).
      rewrite colv_add, colv_scale, IH by lia. rewrite colv_shift. cbn [val].
      rewrite <- (colv_get b (S M)) by lia. cbn [colv]. ring.
Qed.
End B.

(** the term computed by the inner loops *)
Definition cross (a b : list Z) (k i : nat) : Z := (get a i - get a (k - i)) * (get b (k - i) - get b i).
Definition dprod (a b : list Z) (i : nat) : Z := get a i * get b i.

Lemma col_low a b k :
  sumf (dprod a b) (S k) + suml (cross a b k) (seq (1 + k / 2) (k - k / 2)) = conv a b k.
Proof.
  unfold conv. rewrite (pairing (dprod a b)), (pairing (fun i => get a i * get b (k - i))).
  set (l := seq (1 + k / 2) (k - k / 2)).
  assert (M : midf (dprod a b) k = midf (fun i => get a i * get b (k - i)) k).
  { unfold midf, dprod. pose proof (half_eq k) as Hh. destruct (Nat.even k); [|reflexivity].
    rewrite Hh. reflexivity. }
  rewrite M.
  replace (suml (fun i => dprod a b i + dprod a b (k - i)) l + midf (fun i => get a i * get b (k - i)) k + suml (cross a b k) l)
    with (suml (fun i => (dprod a b i + dprod a b (k - i)) + cross a b k i) l + midf (fun i => get a i * get b (k - i)) k)
    by (rewrite (suml_add _ (cross a b k)); lia).
  f_equal. apply suml_ext. intros i Hi. apply in_seq in Hi. unfold dprod, cross.
  replace (k - (k - i))%nat with i by lia. ring.
Qed.

Lemma get_beyond w i : (length w <= i)%nat -> get w i = 0.
Proof. intros H. unfold get. apply nth_overflow. exact H. Qed.

Lemma col_high a b k n : length a = n -> length b = n -> (n <= k)%nat -> (k + 2 <= 2 * n)%nat ->
  sumf (dprod a b) (S k) - sumf (dprod a b) (S (k - n))
    + suml (cross a b k) (seq (1 + k / 2) (n - (1 + k / 2))) = conv a b k.
Proof.
  intros Ha Hb Hk Hk1. rewrite <- col_low.
  assert (Hh : (k / 2 < n)%nat) by (pose proof (half_eq k) as Hq; destruct (Nat.even k); lia).
  assert (Hk2 : (k / 2 <= k)%nat) by (apply Nat.div_le_upper_bound; lia).
  replace (k - k / 2)%nat with ((n - (1 + k / 2)) + (S k - n))%nat by lia.
  rewrite seq_app, suml_app.
  replace (1 + k / 2 + (n - (1 + k / 2)))%nat with n by lia.
  assert (E : suml (cross a b k) (seq n (S k - n)) = - sumf (dprod a b) (S (k - n))).
  { replace (S (k - n)) with (S k - n)%nat by lia. rewrite <- (suml_rev (dprod a b) k (S k - n)) by lia.
    replace (S k - (S k - n))%nat with n by lia.
    assert (G : suml (cross a b k) (seq n (S k - n)) + suml (fun i => dprod a b (k - i)) (seq n (S k - n)) = 0); [|lia].
    rewrite <- suml_add. apply suml_zero. intros i Hi. apply in_seq in Hi. unfold cross, dprod.
    rewrite (get_beyond a i), (get_beyond b i) by lia. ring. }
  rewrite E. lia.
Qed.

(** ** bounds *)
Lemma canon_get B w i : 0 <= B -> canon B w -> 0 <= get w i < 2 ^ B.
Proof.
  intros HB H. destruct (Nat.lt_ge_cases i (length w)) as [L|L].
  - unfold canon in H. rewrite Forall_forall in H. apply H. apply nth_In. exact L.
  - rewrite get_beyond by exact L. split; [lia|apply pow2_pos; exact HB].
Qed.

Lemma sumf_bound f M n k : 0 <= M -> (forall i, (i < n)%nat -> 0 <= f i <= M) -> (forall i, (n <= i)%nat -> f i = 0) ->
  0 <= sumf f k <= Z.of_nat (Nat.min n k) * M.
Proof.
  intros HM H1 H2. induction k as [|k IH]; [cbn; nia|].
  cbn [sumf]. destruct (Nat.lt_ge_cases k n) as [L|L].
  - specialize (H1 k L). replace (Nat.min n (S k)) with (S (Nat.min n k)) by lia. nia.
  - rewrite (H2 k L). replace (Nat.min n (S k)) with (Nat.min n k) by lia. lia.
Qed.

Lemma sumf_mono f n m : (forall i, 0 <= f i) -> (n <= m)%nat -> sumf f n <= sumf f m.
Proof. intros H L. induction L as [|m L IH]; [lia|]. cbn [sumf]. specialize (H m). lia. Qed.

Section WithCfg.
Variable c : cfg.
Hypothesis Hok : cfg_ok c.
Notation B := (BASEBITS c).
Notation C := (CHUNK c).
Notation N := (NLEN c).
Let F := cfg_ok_facts c Hok.
Let HB : 8 <= B. Proof. pose proof (cf_B c F); lia. Qed.
Let HC : B + 3 <= C. Proof. exact (cf_C c F). Qed.
Notation X := (2 ^ BASEBITS c).
Let HX : 65536 <= X.
Proof. change 65536 with (2 ^ 16). apply pow2_le. pose proof (cf_B c F); lia. Qed.
Let HD : 2 ^ (2 * C - 1) * 2 = 2 ^ (2 * (C - B)) * (X * X).
Proof.
  rewrite <- !Z.pow_add_r by lia. rewrite Z.mul_comm. rewrite <- Z.pow_succ_r by lia. f_equal. lia.
Qed.
Let HNX : Z.of_nat N < X.
Proof.
  pose proof (cf_N3 c F) as H3. pose proof (cf_C2 c F).
  assert (2 ^ (2 * (C - B)) <= 2 ^ 16) by (apply pow2_le; lia). change (2 ^ 16) with 65536 in *. lia.
Qed.
Let HXC : X <= 2 ^ (C - 1).
Proof. apply pow2_le. lia. Qed.

Let G1 : Z.of_nat N * X <= X * X.
Proof. apply Z.mul_le_mono_nonneg_r; lia. Qed.
Let G2 : Z.of_nat N <= Z.of_nat N * X.
Proof. clear HD. nia. Qed.
Let G3 : 0 <= Z.of_nat N * (X * X).
Proof. clear HD. apply Z.mul_nonneg_nonneg; lia. Qed.
Let G4 : X * 65536 <= X * X.
Proof. apply Z.mul_le_mono_nonneg_l; lia. Qed.

Ltac nn := first [lia | clear HD; nia].


(** every quantity the column loops compute is below this *)
Lemma big_bound t : - ((3 * Z.of_nat N + 4) * (X * X)) < 2 * t < (3 * Z.of_nat N + 4) * (X * X) ->
  chk (2 * C) t = Some t.
Proof.
  intros H. apply chk_ok. pose proof (cf_N3 c F) as H3.
  assert (E : (3 * Z.of_nat N + 4) * (X * X) <= 2 ^ (2 * C - 1) * 2) by (rewrite HD; apply Z.mul_le_mono_nonneg_r; lia).
  lia.
Qed.

Lemma cross_abs a b k i : canon B a -> canon B b -> Z.abs (cross a b k i) <= X * X.
Proof.
  intros Ha Hb. unfold cross.
  pose proof (canon_get B a i ltac:(lia) Ha). pose proof (canon_get B a (k - i) ltac:(lia) Ha).
  pose proof (canon_get B b i ltac:(lia) Hb). pose proof (canon_get B b (k - i) ltac:(lia) Hb).
  rewrite Z.abs_mul. apply Z.mul_le_mono_nonneg; lia.
Qed.

Lemma mul_terms_spec a b k is t : canon B a -> canon B b ->
  2 * (Z.abs t + Z.of_nat (length is) * (X * X)) < (3 * Z.of_nat N + 4) * (X * X) ->
  mul_terms c a b k is t = Some (t + suml (cross a b k) is).
Proof.
  intros Ha Hb. revert t. induction is as [|i is IH]; intros t H.
  - cbn. f_equal. lia.
  - cbn [mul_terms suml fold_right]. cbn [length] in H.
    pose proof (canon_get B a i ltac:(lia) Ha). pose proof (canon_get B a (k - i) ltac:(lia) Ha).
    pose proof (canon_get B b i ltac:(lia) Hb). pose proof (canon_get B b (k - i) ltac:(lia) Hb).
    pose proof (cross_abs a b k i Ha Hb) as HA.
    rewrite !chk_ok by lia. cbn [bind].
    fold (cross a b k i). rewrite (big_bound (cross a b k i)) by nn. cbn [bind].
    rewrite (big_bound (t + cross a b k i)) by nn. cbn [bind].
    rewrite IH by nn. f_equal. unfold suml. lia.
Qed.

Lemma dlow_mod t : dlow c t = t mod X.
Proof.
  unfold dlow. rewrite bmask_land by exact HB. apply wrap_id; [lia|].
  pose proof (Z.mod_pos_bound t X ltac:(lia)). lia.
Qed.

Lemma dprod_bound a b i : canon B a -> canon B b -> 0 <= dprod a b i <= (X - 1) * (X - 1).
Proof.
  intros Ha Hb. unfold dprod.
  pose proof (canon_get B a i ltac:(lia) Ha). pose proof (canon_get B b i ltac:(lia) Hb). nia.
Qed.
Lemma dsum_bound a b k : big_wf c a -> big_wf c b ->
  0 <= sumf (dprod a b) k <= Z.of_nat N * ((X - 1) * (X - 1)).
Proof.
  intros [La Ha] [Lb Hb].
  pose proof (sumf_bound (dprod a b) ((X - 1) * (X - 1)) N k ltac:(nia)
     ltac:(intros i _; apply dprod_bound; assumption)
     ltac:(intros i Hi; unfold dprod; rewrite (get_beyond a i) by (rewrite La; exact Hi); apply Z.mul_0_l)) as [S1 S2].
  split; [exact S1|]. eapply Z.le_trans; [exact S2|]. apply Z.mul_le_mono_nonneg_r; [clear HD; nia|lia].
Qed.
Lemma conv_bound a b k : canon B a -> canon B b -> (length a <= N)%nat ->
  0 <= conv a b k <= Z.of_nat N * ((X - 1) * (X - 1)).
Proof.
  intros Ha Hb La. unfold conv.
  pose proof (sumf_bound (fun i => get a i * get b (k - i)) ((X - 1) * (X - 1)) N (S k) ltac:(nia)) as G.
  assert (0 <= sumf (fun i => get a i * get b (k - i)) (S k) <= Z.of_nat (Nat.min N (S k)) * ((X - 1) * (X - 1))).
  { apply G.
    - intros i _. pose proof (canon_get B a i ltac:(lia) Ha). pose proof (canon_get B b (k - i) ltac:(lia) Hb).
      nia.
    - intros i Hi. rewrite (get_beyond a i) by lia. lia. }
  destruct H as [S1 S2].
  split; [exact S1|]. eapply Z.le_trans; [exact S2|]. apply Z.mul_le_mono_nonneg_r; [apply Z.square_nonneg|lia].
Qed.

Lemma map2_dprod a b : canon B a -> canon B b -> length a = length b ->
  exists d, map2o (fun x y => chk (2 * C) (x * y)) a b = Some d /\ length d = length a /\ forall i, get d i = dprod a b i.
Proof.
  intros Ha. revert b. induction Ha as [|x a Hx Ha IH]; intros [|y b] Hb Hl; cbn in Hl; try discriminate.
  - exists []. split; [reflexivity|]. split; [reflexivity|]. intros i. unfold dprod, get. destruct i; reflexivity.
  - apply Forall_cons_iff in Hb. destruct Hb as [Hy Hb].
    destruct (IH b Hb ltac:(lia)) as [d [H1 [H2 H3]]].
    cbn [map2o]. rewrite big_bound by nn. cbn [bind]. rewrite H1. cbn [bind].
    eexists; split; [reflexivity|]. split; [cbn; lia|].
    intros [|i]; [reflexivity|]. exact (H3 i).
Qed.

Lemma terms_bound s co n : 0 <= s <= Z.of_nat N * ((X - 1) * (X - 1)) -> 0 <= co <= Z.of_nat N * X ->
  (2 * n <= N)%nat ->
  2 * (Z.abs (co + s) + Z.of_nat n * (X * X)) < (3 * Z.of_nat N + 4) * (X * X).
Proof.
  intros Hs Hco Hn. rewrite Z.abs_eq by lia.
  assert (2 * Z.of_nat n * (X * X) <= Z.of_nat N * (X * X)) by (apply Z.mul_le_mono_nonneg_r; lia).
  lia.
Qed.
Lemma col_bound s co : 0 <= s <= Z.of_nat N * ((X - 1) * (X - 1)) -> 0 <= co <= Z.of_nat N * X ->
  0 <= s + co <= Z.of_nat N * (X * X).
Proof. intros Hs Hco. split; [lia|]. lia. Qed.

Lemma mul_lo_spec a b d n : forall j co, big_wf c a -> big_wf c b -> (forall i, get d i = dprod a b i) ->
  (j + n <= N)%nat -> 0 <= co <= Z.of_nat N * X ->
  exists co' ds, mul_lo c a b d (seq j n) (sumf (dprod a b) j) co = Some (sumf (dprod a b) (j + n), co', ds)
    /\ canon B ds /\ length ds = n /\ 0 <= co' <= Z.of_nat N * X
    /\ val B ds + 2 ^ (B * Z.of_nat n) * co' = colv B (conv a b) j n + co.
Proof.
  induction n as [|n IH]; intros j co Ha Hb Hd Hj Hco.
  - exists co, []. cbn [seq mul_lo colv val length]. rewrite Nat.add_0_r. rewrite Z.mul_0_r, Z.pow_0_r.
    repeat split; try lia. constructor.
  - cbn [seq mul_lo]. rewrite Hd.
    change (sumf (dprod a b) j + dprod a b j) with (sumf (dprod a b) (S j)).
    pose proof (dsum_bound a b (S j) Ha Hb) as Hs.
    pose proof (conv_bound a b j (proj2 Ha) (proj2 Hb) ltac:(rewrite (proj1 Ha); lia)) as Hcv.
    rewrite big_bound by nn. cbn [bind]. rewrite big_bound by nn. cbn [bind].
    rewrite mul_terms_spec; [|exact (proj2 Ha)|exact (proj2 Hb)|].
    2:{ rewrite seq_length. assert (Hjj : (2 * (j - j / 2) <= N)%nat).
        { pose proof (half_eq j) as Hh. destruct (Nat.even j); lia. }
        apply terms_bound; [lia|exact Hco|lia]. }
    replace (co + sumf (dprod a b) (S j) + suml (cross a b j) (seq (1 + j / 2) (j - j / 2)))
      with (conv a b j + co) by (rewrite <- (col_low a b j); lia).
    set (t := conv a b j + co) in *. cbn [bind].
    assert (Ht : 0 <= t <= Z.of_nat N * (X * X)) by (apply col_bound; assumption).
    assert (Hsh : Z.shiftr t B = t / X) by (apply Z.shiftr_div_pow2; lia).
    rewrite Hsh.
    destruct (IH (S j) (t / X) Ha Hb Hd ltac:(lia)) as [co' [ds [H1 [H2 [H3 [H4 H5]]]]]].
    { split; [apply Z.div_pos; lia|]. apply Z.div_le_upper_bound; lia. }
    rewrite H1. cbn [bind]. exists co', (dlow c t :: ds).
    replace (j + S n)%nat with (S j + n)%nat by lia.
    split; [reflexivity|]. rewrite dlow_mod.
    split; [constructor; [apply Z.mod_pos_bound; lia|exact H2]|].
    split; [cbn; lia|]. split; [exact H4|].
    cbn [val colv]. replace (B * Z.of_nat (S n)) with (B + B * Z.of_nat n) by lia.
    rewrite Z.pow_add_r by lia.
    pose proof (Z.div_mod t X ltac:(lia)) as D.
    replace (t mod X + X * val B ds + X * 2 ^ (B * Z.of_nat n) * co')
      with (t mod X + X * (val B ds + 2 ^ (B * Z.of_nat n) * co')) by ring.
    rewrite H5. lia.
Qed.

Lemma mul_hi_spec a b d n : forall j co, big_wf c a -> big_wf c b -> (forall i, get d i = dprod a b i) ->
  (N <= j)%nat -> (j + n <= 2 * N - 1)%nat -> 0 <= co <= Z.of_nat N * X ->
  exists s' co' ds, mul_hi c a b d (seq j n) (sumf (dprod a b) N - sumf (dprod a b) (j - N)) co = Some (s', co', ds)
    /\ canon B ds /\ length ds = n /\ 0 <= co' <= Z.of_nat N * X
    /\ val B ds + 2 ^ (B * Z.of_nat n) * co' = colv B (conv a b) j n + co.
Proof.
  induction n as [|n IH]; intros j co Ha Hb Hd Hj1 Hj Hco.
  - eexists _, co, []. cbn [seq mul_hi colv val length]. rewrite Z.mul_0_r, Z.pow_0_r.
    repeat split; try lia. constructor.
  - cbn [seq mul_hi]. rewrite Hd.
    replace (sumf (dprod a b) N - sumf (dprod a b) (j - N) - dprod a b (j - N))
      with (sumf (dprod a b) N - sumf (dprod a b) (S (j - N))) by (cbn [sumf]; lia).
    pose proof (dsum_bound a b N Ha Hb) as Hs.
    assert (Hs2 : 0 <= sumf (dprod a b) N - sumf (dprod a b) (S (j - N)) <= Z.of_nat N * ((X - 1) * (X - 1))).
    { pose proof (dsum_bound a b (S (j - N)) Ha Hb).
      pose proof (sumf_mono (dprod a b) (S (j - N)) N ltac:(intros i; apply (dprod_bound a b i (proj2 Ha) (proj2 Hb))) ltac:(lia)). lia. }
    pose proof (conv_bound a b j (proj2 Ha) (proj2 Hb) ltac:(rewrite (proj1 Ha); lia)) as Hcv.
    rewrite big_bound by nn. cbn [bind]. rewrite big_bound by nn. cbn [bind].
    rewrite mul_terms_spec; [|exact (proj2 Ha)|exact (proj2 Hb)|].
    2:{ rewrite seq_length. assert (Hjj : (2 * (N - (1 + j / 2)) <= N)%nat).
        { pose proof (half_eq j) as Hh. destruct (Nat.even j); lia. }
        apply terms_bound; [lia|exact Hco|lia]. }
    assert (Esum : sumf (dprod a b) N = sumf (dprod a b) (S j)).
    { replace (S j) with (N + (S j - N))%nat by lia. rewrite sumf_split. rewrite suml_zero; [lia|].
      intros i Hi. apply in_seq in Hi. unfold dprod. rewrite get_beyond; [lia|]. rewrite (proj1 Ha). lia. }
    replace (co + (sumf (dprod a b) N - sumf (dprod a b) (S (j - N))) + suml (cross a b j) (seq (1 + j / 2) (N - (1 + j / 2))))
      with (conv a b j + co).
    2:{ rewrite <- (col_high a b j N (proj1 Ha) (proj1 Hb)) by lia. rewrite Esum. lia. }
    set (t := conv a b j + co) in *. cbn [bind].
    assert (Ht : 0 <= t <= Z.of_nat N * (X * X)) by (apply col_bound; assumption).
    assert (Hsh : Z.shiftr t B = t / X) by (apply Z.shiftr_div_pow2; lia).
    rewrite Hsh. replace (S (j - N)) with (S j - N)%nat by lia.
    destruct (IH (S j) (t / X) Ha Hb Hd ltac:(lia) ltac:(lia)) as [s' [co' [ds [H1 [H2 [H3 [H4 H5]]]]]]].
    { split; [apply Z.div_pos; lia|]. apply Z.div_le_upper_bound; lia. }
    rewrite H1. cbn [bind]. exists s', co', (dlow c t :: ds).
    split; [reflexivity|]. rewrite dlow_mod.
    split; [constructor; [apply Z.mod_pos_bound; lia|exact H2]|].
    split; [cbn; lia|]. split; [exact H4|].
    cbn [val colv]. replace (B * Z.of_nat (S n)) with (B + B * Z.of_nat n) by lia.
    rewrite Z.pow_add_r by lia.
    pose proof (Z.div_mod t X ltac:(lia)) as D.
    replace (t mod X + X * val B ds + X * 2 ^ (B * Z.of_nat n) * co')
      with (t mod X + X * (val B ds + 2 ^ (B * Z.of_nat n) * co')) by ring.
    rewrite H5. lia.
Qed.

(** a canonical prefix plus a top carry equal to a number below X^(n+1): the carry is a digit *)
Lemma top_digit ds co n V : canon B ds -> length ds = n -> 
  val B ds + 2 ^ (B * Z.of_nat n) * co = V -> 0 <= V < 2 ^ (B * Z.of_nat (S n)) -> 0 <= co < X.
Proof.
  intros Hc Hl Hv HV. pose proof (canon_val B ds ltac:(lia) Hc) as R. rewrite Hl in R.
  replace (B * Z.of_nat (S n)) with (B + B * Z.of_nat n) in HV by lia.
  rewrite Z.pow_add_r in HV by lia. clear HD G1 G2 G3 G4 HNX. nia.
Qed.

Lemma mul_spec a b : big_wf c a -> big_wf c b ->
  exists r, mul c a b = Some r /\ dbig_wf c r /\ val B r = val B a * val B b.
Proof.
  intros Ha Hb. pose proof (cf_N c F) as HN.
  destruct (map2_dprod a b (proj2 Ha) (proj2 Hb)) as [d [D1 [D2 D3]]]; [rewrite (proj1 Ha), (proj1 Hb); reflexivity|].
  unfold mul. rewrite D1. cbn [bind]. rewrite D3.
  pose proof (dprod_bound a b 0 (proj2 Ha) (proj2 Hb)) as H0.
  assert (Hsh : Z.shiftr (dprod a b 0) B = dprod a b 0 / X) by (apply Z.shiftr_div_pow2; lia).
  rewrite Hsh.
  destruct (mul_lo_spec a b d (N - 1) 1 (dprod a b 0 / X) Ha Hb D3 ltac:(lia)) as [co1 [ds1 [L1 [L2 [L3 [L4 L5]]]]]].
  { split; [apply Z.div_pos; lia|]. apply Z.div_le_upper_bound; nia. }
  change (sumf (dprod a b) 1) with (0 + dprod a b 0) in L1. rewrite Z.add_0_l in L1.
  rewrite L1. cbn [bind].
  destruct (mul_hi_spec a b d (N - 1) N co1 Ha Hb D3 ltac:(lia) ltac:(lia) L4) as [s2 [co2 [ds2 [K1 [K2 [K3 [K4 K5]]]]]]].
  replace (1 + (N - 1))%nat with N by lia.
  rewrite Nat.sub_diag in K1. cbn [sumf] in K1. rewrite Z.sub_0_r in K1. rewrite K1. cbn [bind].
  rewrite dlow_mod.
  set (pre := dprod a b 0 mod X :: ds1 ++ ds2).
  assert (Hpc : canon B pre).
  { constructor; [apply Z.mod_pos_bound; lia|]. apply Forall_app. split; assumption. }
  assert (Hpl : length pre = (2 * N - 1)%nat) by (unfold pre; cbn [length]; rewrite app_length; lia).
  assert (Hpv : val B pre + 2 ^ (B * Z.of_nat (2 * N - 1)) * co2 = val B a * val B b).
  { rewrite <- (colv_conv B a b (2 * N - 1)) by (rewrite (proj1 Ha), (proj1 Hb); lia).
    replace (2 * N - 1)%nat with (S ((N - 1) + (N - 1)))%nat by lia.
    cbn [colv]. rewrite colv_app by lia. replace (1 + (N - 1))%nat with N by lia.
    unfold pre. cbn [val]. rewrite val_app by lia. rewrite L3.
    replace (B * Z.of_nat (S (N - 1 + (N - 1)))) with (B + (B * Z.of_nat (N - 1) + B * Z.of_nat (N - 1))) by lia.
    rewrite !Z.pow_add_r by lia.
    pose proof (Z.div_mod (dprod a b 0) X ltac:(lia)) as D.
    assert (E0 : conv a b 0 = dprod a b 0) by (unfold conv, dprod; cbn [sumf Nat.sub]; lia).
    rewrite E0. set (E := 2 ^ (B * Z.of_nat (N - 1))) in *.
    replace (colv B (conv a b) 1 (N - 1)) with (val B ds1 + E * co1 - dprod a b 0 / X) by lia.
    replace (colv B (conv a b) N (N - 1)) with (val B ds2 + E * co2 - co1) by lia.
    rewrite D at 2. ring. }
  pose proof (canon_val B a ltac:(lia) (proj2 Ha)) as Ra. rewrite (proj1 Ha) in Ra.
  pose proof (canon_val B b ltac:(lia) (proj2 Hb)) as Rb. rewrite (proj1 Hb) in Rb.
  assert (Hco : 0 <= co2 < X).
  { apply (top_digit pre co2 (2 * N - 1) (val B a * val B b)); try assumption.
    replace (S (2 * N - 1)) with (N + N)%nat by lia.
    replace (B * Z.of_nat (N + N)) with (B * Z.of_nat N + B * Z.of_nat N) by lia.
    rewrite Z.pow_add_r by lia. split; [apply Z.mul_nonneg_nonneg; lia|]. apply Z.mul_lt_mono_nonneg; lia. }
  rewrite wrap_id by lia.
  eexists; split; [reflexivity|].
  replace (dprod a b 0 mod X :: ds1 ++ ds2 ++ [co2]) with (pre ++ [co2]) by (unfold pre; rewrite <- app_comm_cons, <- app_assoc; reflexivity).
  split; [split|].
  - rewrite app_length, Hpl. cbn [length]. unfold DNLEN. lia.
  - apply Forall_app. split; [exact Hpc|]. constructor; [exact Hco|constructor].
  - rewrite val_app, Hpl by lia. cbn [val]. rewrite Z.mul_0_r, Z.add_0_r. exact Hpv.
Qed.
End WithCfg.
