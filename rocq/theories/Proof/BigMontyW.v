(** Montgomery reduction of a value whose limbs are not normalised (each below twice the base), as FP::redc applies it to
    sums of two field elements (big.rs:929-1003): the column arithmetic still fits. *)
From Verif Require Import Base.Word Model.Big Spec.BigSpec Proof.BigVal Proof.BigShift Proof.BigMul Proof.BigMonty.
Require Import Psatz.

Lemma val_nn B w : 0 <= B -> Forall (fun z => 0 <= z) w -> 0 <= val B w.
Proof. intros HB H. induction H as [|z w Hz H IH]; cbn [val]; [lia|]. pose proof (Z.pow_nonneg 2 B ltac:(lia)). assert (0 <= 2 ^ B * val B w) by (apply Z.mul_nonneg_nonneg; lia). lia. Qed.

Section WithCfg.
Variable c : cfg.
Hypothesis Hok : cfg_ok c.
Notation B := (BASEBITS c).
Notation C := (CHUNK c).
Notation N := (NLEN c).
Notation X := (2 ^ BASEBITS c).
Notation Nz := (Z.of_nat (NLEN c)).
Let F := cfg_ok_facts c Hok.
Let HB : 16 <= B. Proof. exact (cf_B c F). Qed.
Let HC : B + 3 <= C. Proof. exact (cf_C c F). Qed.
Let HB0 : 0 <= B. Proof. lia. Qed.
Let HN2 : (2 <= N)%nat. Proof. exact (cf_N c F). Qed.
Let HX : 65536 <= X.
Proof. change 65536 with (2 ^ 16). apply pow2_le. lia. Qed.
Let HNX : Nz < X.
Proof.
  pose proof (cf_N3 c F) as H3. pose proof (cf_C2 c F).
  assert (2 ^ (2 * (C - B)) <= 2 ^ 16) by (apply pow2_le; lia). change (2 ^ 16) with 65536 in *. lia.
Qed.
Let G1 : Nz * X <= X * X.
Proof. apply Z.mul_le_mono_nonneg_r; lia. Qed.
Let G2 : Nz + X - 1 <= Nz * X.
Proof. nia. Qed.
Let G2' : Nz + 2 * (X - 1) <= Nz * X.
Proof. assert (2 * (X - 1) <= Nz * (X - 1)) by (apply Z.mul_le_mono_nonneg_r; lia). lia. Qed.
Let G3 : 0 <= Nz * (X * X).
Proof. apply Z.mul_nonneg_nonneg; lia. Qed.
Let G5 : 2 * (X * X) <= Nz * (X * X).
Proof. apply Z.mul_le_mono_nonneg_r; lia. Qed.
Let G4 : X * 65536 <= X * X.
Proof. apply Z.mul_le_mono_nonneg_l; lia. Qed.
Let HXC : X <= 2 ^ (C - 1).
Proof. apply pow2_le. lia. Qed.

Lemma monty_terms_spec v m k is t : canon B v -> canon B m ->
  2 * (Z.abs t + Z.of_nat (length is) * (X * X)) < (3 * Z.of_nat N + 4) * (X * X) ->
  monty_terms c v m k is t = Some (t + suml (cross v m k) is).
Proof.
  intros Ha Hb. revert t. induction is as [|i is IH]; intros t H.
  - cbn. f_equal. lia.
  - cbn [monty_terms suml fold_right]. cbn [length] in H.
    pose proof (canon_get B v i ltac:(lia) Ha) as A1. pose proof (canon_get B v (k - i) ltac:(lia) Ha) as A2.
    pose proof (canon_get B m i ltac:(lia) Hb) as A3. pose proof (canon_get B m (k - i) ltac:(lia) Hb) as A4.
    pose proof (cross_abs c Hok v m k i Ha Hb) as HA.
    rewrite !chk_ok by lia. cbn [bind].
    replace ((get v (k - i) - get v i) * (get m i - get m (k - i))) with (cross v m k i) by (unfold cross; ring).
    assert (H5 : Z.of_nat (S (length is)) * (X * X) = X * X + Z.of_nat (length is) * (X * X)) by (rewrite Nat2Z.inj_succ; ring).
    assert (H6 : 0 <= Z.of_nat (length is) * (X * X)) by (apply Z.mul_nonneg_nonneg; lia).
    rewrite (big_bound c Hok (cross v m k i)) by lia. cbn [bind].
    rewrite (big_bound c Hok (t + cross v m k i)) by lia. cbn [bind].
    rewrite IH by lia. f_equal. unfold suml. lia.
Qed.

Lemma monty_v_spec mc t : monty_v c mc t = (t * mc) mod X.
Proof.
  unfold monty_v. rewrite (wrap_bmask c ltac:(lia) HC). rewrite (dlow_mod c Hok).
  apply Z.mul_mod_idemp_l. lia.
Qed.

Section M.
Variables (m d : list Z) (mc : Z).
Hypothesis Hm : big_wf c m.
Hypothesis Hd : length d = DNLEN c /\ Forall (fun z => 0 <= z <= 2 * (X - 1)) d.
Lemma wget k : 0 <= get d k <= 2 * (X - 1).
Proof. unfold get. destruct (nth_in_or_default k d 0) as [H| ->]; [|lia]. exact (proj1 (Forall_forall _ _) (proj2 Hd) _ H). Qed.
Hypothesis Hmc : (get m 0 * mc + 1) mod X = 0.

Let dc (v : list Z) (k : nat) : Z := get d k + conv v m k.
Definition psum (v : list Z) (k : nat) : Z := colv B (dc v) 0 k.

Lemma red_zero t : (t + (t * mc) mod X * get m 0) mod X = 0.
Proof.
  rewrite <- Z.add_mod_idemp_r by lia. rewrite Z.mul_mod_idemp_l by lia. rewrite Z.add_mod_idemp_r by lia.
  replace (t + t * mc * get m 0) with (t * (get m 0 * mc + 1)) by ring.
  rewrite <- Z.mul_mod_idemp_r by lia. rewrite Hmc. rewrite Z.mul_0_r. apply Z.mod_0_l. lia.
Qed.

Lemma psum_S v k : psum v (S k) = psum v k + 2 ^ (B * Z.of_nat k) * dc v k.
Proof.
  unfold psum. rewrite <- Nat.add_1_r. rewrite colv_app by lia. cbn [colv plus]. ring.
Qed.

(** state of the first loop before column k *)
Record linv (k : nat) (v dd : list Z) (s cc : Z) : Prop := {
  li_len : length v = k;
  li_canon : canon B v;
  li_ddl : length dd = k;
  li_dd : forall i, (1 <= i < k)%nat -> get dd i = dprod v m i;
  li_s : s = sumf (dprod v m) k - dprod v m 0;
  li_cc : 0 <= cc - get d k <= Nz * X;
  li_sum : psum v k = 2 ^ (B * Z.of_nat k) * (cc - get d k) }.

Lemma dprod_b v i : canon B v -> 0 <= dprod v m i <= (X - 1) * (X - 1).
Proof. intros Hv. apply (dprod_bound c Hok); [exact Hv|exact (proj2 Hm)]. Qed.

Lemma dsum_b v k : canon B v -> (length v <= N)%nat -> 0 <= sumf (dprod v m) k <= Nz * ((X - 1) * (X - 1)).
Proof.
  intros Hv Hl.
  pose proof (sumf_bound (dprod v m) ((X - 1) * (X - 1)) N k ltac:(apply Z.square_nonneg)
     ltac:(intros i _; apply dprod_b; assumption)
     ltac:(intros i Hi; unfold dprod; rewrite (get_beyond v i) by lia; apply Z.mul_0_l)) as [S1 S2].
  split; [exact S1|]. eapply Z.le_trans; [exact S2|]. apply Z.mul_le_mono_nonneg_r; [apply Z.square_nonneg|lia].
Qed.

Lemma prod_le x y : 0 <= x < X -> 0 <= y < X -> 0 <= x * y <= (X - 1) * (X - 1).
Proof. intros H1 H2. split; [apply Z.mul_nonneg_nonneg; lia|]. apply Z.mul_le_mono_nonneg; lia. Qed.

Lemma pb t : 0 <= t <= (Nz + 1) * (X * X) -> chk (2 * C) t = Some t.
Proof. intros H. apply big_bound; [exact Hok|]. lia. Qed.

Lemma colsum_b cv cc : 0 <= cv <= Nz * ((X - 1) * (X - 1)) -> 0 <= cc <= Nz * X + 2 * (X - 1) ->
  0 <= cv + cc <= Nz * (X * X).
Proof. intros H1 H2. split; [lia|]. lia. Qed.

Lemma div_b t : 0 <= t <= Nz * (X * X) -> Z.shiftr t B = t / X /\ 0 <= t / X <= Nz * X.
Proof.
  intros H. split; [apply Z.shiftr_div_pow2; lia|].
  split; [apply Z.div_pos; lia|]. apply Z.div_le_upper_bound; lia.
Qed.

Lemma monty_lo_step k v dd s cc : linv k v dd s cc -> (1 <= k < N)%nat ->
  exists vk ddk s1 c1,
    (a0 <- chk (2 * C) (cc + s) ;;
      p0 <- chk (2 * C) (get v 0 * get m k) ;;
      t0 <- chk (2 * C) (a0 + p0) ;;
      t1 <- monty_terms c v m k (seq (1 + k / 2) (k - (1 + k / 2))) t0 ;;
      let vk := monty_v c mc t1 in
      p1 <- chk (2 * C) (vk * get m 0) ;;
      t2 <- chk (2 * C) (t1 + p1) ;;
      c1 <- chk (2 * C) (get d (k + 1) + Z.shiftr t2 B) ;;
      ddk <- chk (2 * C) (vk * get m k) ;;
      s1 <- chk (2 * C) (s + ddk) ;;
      Some (vk, ddk, s1, c1)) = Some (vk, ddk, s1, c1)
    /\ linv (S k) (v ++ [vk]) (dd ++ [ddk]) s1 c1.
Proof.
  intros I Hk. destruct I as [I1 I2 I3 I4 I5 I6 I7].
  pose proof (proj2 Hm) as Hmc0. pose proof (proj2 Hd) as Hdc.
  pose proof (wget k) as Dk. pose proof (wget (k + 1)) as Dk1.
  pose proof (prod_le _ _ (canon_get B v 0 ltac:(lia) I2) (canon_get B m k ltac:(lia) Hmc0)) as Pvm.
  pose proof (dsum_b v k I2 ltac:(lia)) as Ds. pose proof (dprod_b v 0 I2) as D0.
  assert (Hs : 0 <= s <= Nz * ((X - 1) * (X - 1))).
  { rewrite I5. split; [|lia]. 
    pose proof (sumf_mono (dprod v m) 1 k ltac:(intros i; apply dprod_b; exact I2) ltac:(lia)) as Mo. cbn [sumf] in Mo. lia. }
  set (is := seq (1 + k / 2) (k - (1 + k / 2))).
  set (t0 := cc + s + get v 0 * get m k).
  set (t1 := t0 + suml (cross v m k) is).
  set (vk := (t1 * mc) mod X).
  assert (Hvk : 0 <= vk < X) by (apply Z.mod_pos_bound; lia).
  assert (Hlen : (2 * length is + 2 <= N)%nat \/ length is = 0%nat).
  { unfold is. rewrite seq_length. pose proof (half_eq k) as Hh. destruct (Nat.even k); lia. }
  assert (Hlen2 : 2 * (Z.of_nat (length is) * (X * X)) + 2 * (X * X) <= Nz * (X * X) \/ Z.of_nat (length is) * (X * X) = 0).
  { destruct Hlen as [L|L]; [left|right; rewrite L; apply Z.mul_0_l].
    replace (2 * (Z.of_nat (length is) * (X * X)) + 2 * (X * X)) with (Z.of_nat (2 * length is + 2) * (X * X)) by (rewrite Nat2Z.inj_add, Nat2Z.inj_mul; ring).
    apply Z.mul_le_mono_nonneg_r; lia. }
  assert (Ht1 : monty_terms c v m k is t0 = Some t1).
  { apply monty_terms_spec; try assumption. unfold t0. rewrite Z.abs_eq by lia. clear Hlen. lia. }
  assert (Ecol : t1 + vk * get m 0 = conv (v ++ [vk]) m k + cc).
  { rewrite <- (col_monty v vk m k I1) by lia. unfold t1, t0. fold is. rewrite I5. ring. }
  assert (Hcv' : canon B (v ++ [vk])) by (apply Forall_app; split; [exact I2|constructor; [exact Hvk|constructor]]).
  pose proof (conv_bound c Hok (v ++ [vk]) m k Hcv' Hmc0 ltac:(rewrite app_length; cbn [length]; lia)) as Bcv.
  pose proof (prod_le _ _ Hvk (canon_get B m 0 ltac:(lia) Hmc0)) as P0.
  pose proof (prod_le _ _ Hvk (canon_get B m k ltac:(lia) Hmc0)) as Pk.
  assert (Ht2 : 0 <= t1 + vk * get m 0 <= Nz * (X * X)) by (rewrite Ecol; apply colsum_b; [exact Bcv|lia]).
  destruct (div_b _ Ht2) as [Esh Hq].
  assert (Hs1 : s + vk * get m k = sumf (dprod (v ++ [vk]) m) (S k) - dprod (v ++ [vk]) m 0).
  { cbn [sumf]. rewrite sumf_dprod_app by lia.
    assert (E : dprod (v ++ [vk]) m k = vk * get m k) by (unfold dprod; rewrite <- I1 at 1; rewrite get_app_r; reflexivity).
    assert (E0 : dprod (v ++ [vk]) m 0 = dprod v m 0) by (unfold dprod; rewrite get_app_l by lia; reflexivity).
    rewrite E, E0, I5. ring. }
  pose proof (dsum_b (v ++ [vk]) (S k) Hcv' ltac:(rewrite app_length; cbn [length]; lia)) as Ds'.
  pose proof (dprod_b (v ++ [vk]) 0 Hcv') as D0'.
  exists vk, (vk * get m k), (s + vk * get m k), (get d (k + 1) + (t1 + vk * get m 0) / X).
  split.
  - rewrite pb by lia. cbn [bind]. rewrite pb by lia. cbn [bind]. fold t0. rewrite pb by (unfold t0; lia). cbn [bind].
    fold is. rewrite Ht1. cbn [bind]. rewrite monty_v_spec. fold vk.
    rewrite pb by lia. cbn [bind]. rewrite pb by lia. cbn [bind]. rewrite Esh.
    rewrite pb by lia. cbn [bind]. rewrite pb by lia. cbn [bind]. rewrite pb by lia. reflexivity.
  - constructor.
    + rewrite app_length. cbn [length]. lia.
    + exact Hcv'.
    + rewrite app_length. cbn [length]. lia.
    + intros i Hi. destruct (Nat.eq_dec i k) as [->|Nk].
      * assert (Ea : get (dd ++ [vk * get m k]) k = vk * get m k) by (rewrite <- I3 at 2; apply get_app_r).
        assert (Eb : get (v ++ [vk]) k = vk) by (rewrite <- I1 at 1; apply get_app_r).
        unfold dprod. rewrite Ea, Eb. reflexivity.
      * rewrite get_app_l by lia. rewrite I4 by lia. unfold dprod. rewrite get_app_l by lia. reflexivity.
    + exact Hs1.
    + replace (S k) with (k + 1)%nat by lia. lia.
    + rewrite psum_S.
      assert (Ep : psum (v ++ [vk]) k = psum v k).
      { unfold psum. apply colv_ext. intros i Hi. unfold dc. rewrite conv_app_stable by lia. reflexivity. }
      rewrite Ep, I7. unfold dc.
      replace (S k) with (k + 1)%nat by lia.
      replace (get d (k + 1) + (t1 + vk * get m 0) / X - get d (k + 1)) with ((t1 + vk * get m 0) / X) by lia.
      replace (B * Z.of_nat (k + 1)) with (B * Z.of_nat k + B) by lia. rewrite Z.pow_add_r by lia.
      pose proof (Z.div_mod (t1 + vk * get m 0) X ltac:(lia)) as D.
      unfold vk in D. rewrite red_zero in D. fold vk in D. rewrite Z.add_0_r in D.
      rewrite <- Z.mul_assoc, <- D, Ecol. ring.
Qed.

Lemma monty_lo_spec n : forall k v dd s cc, linv k v dd s cc -> (1 <= k)%nat -> (k + n <= N)%nat ->
  exists v' dd' s' cc', monty_lo c m mc d (seq k n) v dd s cc = Some (v', dd', s', cc') /\ linv (k + n) v' dd' s' cc'.
Proof.
  induction n as [|n IH]; intros k v dd s cc I Hk Hn.
  - exists v, dd, s, cc. rewrite Nat.add_0_r. split; [reflexivity|exact I].
  - destruct (monty_lo_step k v dd s cc I ltac:(lia)) as [vk [ddk [s1 [c1 [E I']]]]].
    destruct (IH (S k) _ _ _ _ I' ltac:(lia) ltac:(lia)) as [v' [dd' [s' [cc' [E' I'']]]]].
    exists v', dd', s', cc'. replace (k + S n)%nat with (S k + n)%nat by lia. split; [|exact I''].
    cbn [seq monty_lo]. rewrite <- E'. clear E' I' I''. cbv zeta in E.
    repeat match type of E with
    | bind ?x _ = _ => let e := fresh in destruct x eqn:e; [cbn [bind] in E |- *|discriminate E]
    end.
    injection E as <- <- <- <-. reflexivity.
Qed.

Lemma monty_hi_spec v dd n : forall k s cc, length v = N -> canon B v ->
  (forall i, (1 <= i < N)%nat -> get dd i = dprod v m i) ->
  (N <= k)%nat -> (k + n <= 2 * N - 1)%nat ->
  s = sumf (dprod v m) N - sumf (dprod v m) (S (k - N)) -> 0 <= cc - get d k <= Nz * X ->
  exists ds cc', monty_hi c m d v dd (seq k n) s cc = Some (ds, cc') /\ canon B ds /\ length ds = n
   /\ 0 <= cc' - get d (k + n) <= Nz * X
   /\ val B ds + 2 ^ (B * Z.of_nat n) * (cc' - get d (k + n)) = colv B (dc v) k n + (cc - get d k).
Proof.
  induction n as [|n IH]; intros k s cc Lv Hv Hdd Hk1 Hk2 Es Hcc.
  - exists [], cc. cbn [seq monty_hi val length colv]. rewrite Nat.add_0_r. change (Z.of_nat 0) with 0.
    rewrite Z.mul_0_r, Z.pow_0_r. split; [reflexivity|]. split; [constructor|]. split; [reflexivity|]. split; [exact Hcc|lia].
  - cbn [seq monty_hi].
    pose proof (proj2 Hm) as Hmc0. pose proof (proj2 Hd) as Hdc.
    pose proof (wget k) as Dk. pose proof (wget (k + 1)) as Dk1.
    assert (Hs : 0 <= s <= Nz * ((X - 1) * (X - 1))).
    { pose proof (dsum_b v N Hv ltac:(lia)). pose proof (dsum_b v (S (k - N)) Hv ltac:(lia)).
      pose proof (sumf_mono (dprod v m) (S (k - N)) N ltac:(intros i; apply dprod_b; exact Hv) ltac:(lia)). lia. }
    rewrite pb by lia. cbn [bind].
    set (is := seq (1 + k / 2) (N - (1 + k / 2))).
    assert (Hlen : (2 * length is <= N)%nat).
    { unfold is. rewrite seq_length. pose proof (half_eq k) as Hh. destruct (Nat.even k); lia. }
    assert (Hlen2 : 2 * (Z.of_nat (length is) * (X * X)) <= Nz * (X * X)).
    { replace (2 * (Z.of_nat (length is) * (X * X))) with (Z.of_nat (2 * length is) * (X * X)) by (rewrite Nat2Z.inj_mul; ring).
      apply Z.mul_le_mono_nonneg_r; lia. }
    rewrite monty_terms_spec; [|exact Hv|exact Hmc0|rewrite Z.abs_eq by lia; lia].
    assert (Esum : sumf (dprod v m) N = sumf (dprod v m) (S k)).
    { replace (S k) with (N + (S k - N))%nat by lia. rewrite sumf_split. rewrite suml_zero; [lia|].
      intros i Hi. apply in_seq in Hi. unfold dprod. rewrite (get_beyond v i) by lia. lia. }
    replace (cc + s + suml (cross v m k) is) with (conv v m k + cc).
    2:{ rewrite <- (col_high v m k N Lv (proj1 Hm)) by lia. fold is. rewrite Es, Esum. lia. }
    cbn [bind].
    pose proof (conv_bound c Hok v m k Hv Hmc0 ltac:(lia)) as Bcv.
    set (t := conv v m k + cc) in *.
    assert (Ht : 0 <= t <= Nz * (X * X)) by (apply colsum_b; [exact Bcv|lia]).
    destruct (div_b t Ht) as [Esh Hq]. rewrite Esh. rewrite pb by lia. cbn [bind].
    assert (Edd : s - get dd (k + 1 - N) = sumf (dprod v m) N - sumf (dprod v m) (S (S k - N)) ).
    { replace (S k - N)%nat with (S (k - N)) by lia. cbn [sumf] in *.
      replace (k + 1 - N)%nat with (S (k - N)) by lia. rewrite Hdd by lia. lia. }
    rewrite Edd.
    assert (Hs2 : 0 <= sumf (dprod v m) N - sumf (dprod v m) (S (S k - N)) <= Nz * ((X - 1) * (X - 1))).
    { pose proof (dsum_b v N Hv ltac:(lia)). pose proof (dsum_b v (S (S k - N)) Hv ltac:(lia)).
      pose proof (sumf_mono (dprod v m) (S (S k - N)) N ltac:(intros i; apply dprod_b; exact Hv) ltac:(lia)). lia. }
    rewrite pb by lia. cbn [bind].
    destruct (IH (S k) _ (get d (k + 1) + t / X) Lv Hv Hdd ltac:(lia) ltac:(lia) eq_refl) as [ds [cc' [H1 [H2 [H3 [H4 H5]]]]]].
    { replace (S k) with (k + 1)%nat by lia. lia. }
    rewrite H1. cbn [bind fst snd]. rewrite (dlow_mod c Hok).
    eexists _, cc'. split; [reflexivity|].
    split; [constructor; [apply Z.mod_pos_bound; lia|exact H2]|]. split; [cbn [length]; lia|].
    replace (k + S n)%nat with (S k + n)%nat by lia. split; [exact H4|].
    cbn [val colv]. replace (B * Z.of_nat (S n)) with (B + B * Z.of_nat n) by lia. rewrite Z.pow_add_r by lia.
    replace (k + 1)%nat with (S k) in H5 by lia.
    replace (get d (S k) + t / X - get d (S k)) with (t / X) in H5 by ring.
    pose proof (Z.div_mod t X ltac:(lia)) as D.
    replace (t mod X + X * val B ds + X * 2 ^ (B * Z.of_nat n) * (cc' - get d (S k + n)))
      with (t mod X + X * (val B ds + 2 ^ (B * Z.of_nat n) * (cc' - get d (S k + n)))) by ring.
    rewrite H5. change (dc v k) with (get d k + conv v m k).
    replace (get d k + conv v m k) with (t + (get d k - cc)) by (unfold t; ring).
    set (q := t / X) in *. set (r := t mod X) in *. clearbody q r. clearbody t. rewrite D. ring.
Qed.

Lemma montyw_spec : val B d + (2 ^ (B * Nz) - 1) * val B m < 2 ^ (B * Nz) * 2 ^ (B * Nz) ->
  exists r q, monty c m mc d = Some r /\ big_wf c r /\ 0 <= q < 2 ^ (B * Nz)
    /\ val B r * 2 ^ (B * Nz) = val B d + q * val B m.
Proof.
  intros Hfit. unfold monty.
  pose proof (proj2 Hm) as Hmc0. pose proof (proj2 Hd) as Hdc.
  pose proof (wget 0) as D0. pose proof (wget 1) as D1.
  rewrite monty_v_spec. set (v0 := (get d 0 * mc) mod X).
  assert (Hv0 : 0 <= v0 < X) by (apply Z.mod_pos_bound; lia).
  pose proof (prod_le _ _ Hv0 (canon_get B m 0 ltac:(lia) Hmc0)) as P0.
  rewrite pb by lia. cbn [bind]. rewrite pb by lia. cbn [bind].
  assert (Ht : 0 <= get d 0 + v0 * get m 0 <= Nz * (X * X)).
  { split; [lia|]. assert (2 * (X * X) <= Nz * (X * X)) by (apply Z.mul_le_mono_nonneg_r; lia). lia. }
  destruct (div_b _ Ht) as [Esh Hq]. rewrite Esh. rewrite pb by lia. cbn [bind].
  assert (I1 : linv 1 [v0] [0] 0 (get d 1 + (get d 0 + v0 * get m 0) / X)).
  { constructor.
    - reflexivity.
    - constructor; [exact Hv0|constructor].
    - reflexivity.
    - intros i Hi. lia.
    - cbn [sumf]. lia.
    - lia.
    - unfold psum. cbn [colv]. unfold dc, conv. cbn [sumf Nat.sub]. 
      change (get [v0] 0) with v0. replace (B * Z.of_nat 1) with B by lia.
      pose proof (Z.div_mod (get d 0 + v0 * get m 0) X ltac:(lia)) as D.
      unfold v0 in D. rewrite red_zero in D. fold v0 in D. lia. }
  destruct (monty_lo_spec (N - 1) 1 _ _ _ _ I1 ltac:(lia) ltac:(lia)) as [v [dd [s [cc [E1 I2]]]]].
  rewrite E1. cbn [bind]. replace (1 + (N - 1))%nat with N in I2 by lia.
  destruct I2 as [J1 J2 J3 J4 J5 J6 J7].
  destruct (monty_hi_spec v dd (N - 1) N s cc J1 J2 J4 ltac:(lia) ltac:(lia)) as [ds [cc' [K1 [K2 [K3 [K4 K5]]]]]].
  { rewrite J5, Nat.sub_diag. cbn [sumf]. lia. } { exact J6. }
  rewrite K1. cbn [bind fst snd].
  replace (N + (N - 1))%nat with (2 * N - 1)%nat in * by lia.
  assert (Etot : 2 ^ (B * Nz) * (val B ds + 2 ^ (B * Z.of_nat (N - 1)) * cc') = val B d + val B v * val B m).
  { rewrite <- (colv_conv B v m (2 * N - 1)) by (rewrite J1, (proj1 Hm); lia).
    rewrite <- (colv_get B d (2 * N)) by (rewrite (proj1 Hd); unfold DNLEN; lia).
    replace (2 * N)%nat with ((2 * N - 1) + 1)%nat at 1 by lia. rewrite (colv_app B ltac:(lia) (get d)).
    cbn [colv plus].
    replace (colv B (get d) 0 (2 * N - 1) + 2 ^ (B * Z.of_nat (2 * N - 1)) * (get d (2 * N - 1) + X * 0) + colv B (conv v m) 0 (2 * N - 1))
      with (colv B (dc v) 0 (2 * N - 1) + 2 ^ (B * Z.of_nat (2 * N - 1)) * get d (2 * N - 1))
      by (unfold dc; rewrite colv_add; ring).
    replace (2 * N - 1)%nat with (N + (N - 1))%nat at 1 by lia. rewrite (colv_app B ltac:(lia) (dc v)). cbn [plus].
    fold (psum v N). rewrite J7.
    replace (colv B (dc v) N (N - 1)) with (val B ds + 2 ^ (B * Z.of_nat (N - 1)) * (cc' - get d (2 * N - 1)) - (cc - get d N)) by lia.
    replace (B * Z.of_nat (2 * N - 1)) with (B * Nz + B * Z.of_nat (N - 1)) by lia.
    rewrite Z.pow_add_r by (apply Z.mul_nonneg_nonneg; lia). ring. }
  pose proof (canon_val B v HB0 J2) as Rv. rewrite J1 in Rv.
  pose proof (canon_val B m HB0 Hmc0) as Rm. assert (Rd : 0 <= val B d) by (apply val_nn; [exact HB0|eapply Forall_impl; [|exact Hdc]; intros z Hz; cbv beta in Hz; lia]).
  assert (PR : 0 < 2 ^ (B * Nz)) by (apply pow2_pos; apply Z.mul_nonneg_nonneg; lia).
  assert (Hcc : 0 <= cc' < X).
  { apply (top_digit c Hok ds cc' (N - 1) _ K2 K3 eq_refl). replace (S (N - 1)) with N by lia.
    assert (Hu : val B v * val B m <= (2 ^ (B * Nz) - 1) * val B m) by (apply Z.mul_le_mono_nonneg_r; lia).
    assert (Hl : 0 <= val B v * val B m) by (apply Z.mul_nonneg_nonneg; lia).
    split.
    - apply (Z.mul_nonneg_cancel_l (2 ^ (B * Nz))); [exact PR|]. lia.
    - apply (Z.mul_lt_mono_pos_l (2 ^ (B * Nz))); [exact PR|]. lia. }
  rewrite (dlow_mod c Hok), Z.mod_small by lia.
  exists (ds ++ [cc']), (val B v). split; [reflexivity|].
  split; [split|].
  - rewrite app_length. cbn [length]. lia.
  - apply Forall_app. split; [exact K2|]. constructor; [exact Hcc|constructor].
  - split; [exact Rv|]. rewrite val_app by lia. rewrite K3. cbn [val]. rewrite Z.mul_0_r, Z.add_0_r. lia.
Qed.
End M.
End WithCfg.
