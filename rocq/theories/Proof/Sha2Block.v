(** The block transform of the three SHA-2 files = the FIPS 180-4 compression function. *)
From Verif Require Import Base.Word Base.Arr Model.Sha2Tables Model.Sha2 Spec.Bytes Spec.Sha2Spec Proof.AesBase Proof.GcmBase.

Definition amounts_ok (w : Z) (p : Z * Z * Z) : Prop := let '(a, b, c) := p in 0 <= a <= w /\ 0 <= b <= w /\ 0 <= c <= w.
Record matches (C : sha) (P : sha_par) : Prop := mkm {
  mW : sW C = W P; mW2 : W P = 32 \/ W P = 64;
  mR : sR C = rounds P; mR2 : (16 <= rounds P)%nat; mR3 : (64 <= rounds P)%nat;
  mK : sK C = K P; mH : sH C = H0 P; mKl : length (K P) = rounds P; mHl : length (H0 P) = 8%nat;
  mO : sOut C = outlen P; mO2 : (0 < outlen P <= 8 * wbytes P)%nat; mO3 : (outlen P < 256)%nat;
  mS0 : sS0 C = big0 P; mS1 : sS1 C = big1 P; mT0 : sT0 C = small0 P; mT1 : sT1 C = small1 P;
  aS0 : amounts_ok (W P) (big0 P); aS1 : amounts_ok (W P) (big1 P); aT0 : amounts_ok (W P) (small0 P); aT1 : amounts_ok (W P) (small1 P) }.

Lemma K256 : HASH256_K = K SHA256. Proof. vm_compute. reflexivity. Qed.
Lemma K512 : HASH512_K = K SHA512. Proof. vm_compute. reflexivity. Qed.
Lemma K384 : HASH384_K = K SHA384. Proof. change (K SHA384) with (K SHA512). rewrite <- K512. reflexivity. Qed.
Lemma H256 : HASH256_H = H0 SHA256. Proof. vm_compute. reflexivity. Qed.
Lemma H512 : HASH512_H = H0 SHA512. Proof. vm_compute. reflexivity. Qed.
Lemma H384 : HASH384_H = H0 SHA384. Proof. vm_compute. reflexivity. Qed.
Ltac mcase := constructor; [reflexivity|auto|reflexivity|cbn;lia|cbn;lia| | | | |reflexivity|vm_compute; lia|vm_compute; lia|reflexivity|reflexivity|reflexivity|reflexivity|unfold amounts_ok; cbn; lia..].
Lemma m256 : matches sha256 SHA256.
Proof. mcase; [apply K256|apply H256|rewrite <- K256; reflexivity|rewrite <- H256; reflexivity]. Qed.
Lemma m384 : matches sha384 SHA384.
Proof. mcase; [apply K384|apply H384|rewrite <- K384; reflexivity|rewrite <- H384; reflexivity]. Qed.
Lemma m512 : matches sha512 SHA512.
Proof. mcase; [apply K512|apply H512|rewrite <- K512; reflexivity|rewrite <- H512; reflexivity]. Qed.

Lemma add_mod_r' a b m : (a + b mod m) mod m = (a + b) mod m.
Proof. rewrite Z.add_comm, Zplus_mod_idemp_l, Z.add_comm. reflexivity. Qed.
Lemma add4_mod a b c d m : (((a + b) mod m + c) mod m + d) mod m = (a + b + c + d) mod m.
Proof. rewrite <- (Zplus_mod_idemp_l (a + b + c) d), <- (Zplus_mod_idemp_l (a + b) c). reflexivity. Qed.
Lemma add5_mod a b c d e m : ((((a + b) mod m + c) mod m + d) mod m + e) mod m = (a + b + c + d + e) mod m.
Proof. rewrite (add4_mod a b c d m), Zplus_mod_idemp_l. reflexivity. Qed.
Lemma Forall_aset {A} (Q : A -> Prop) l : forall i v, Forall Q l -> Q v -> Forall Q (aset l i v).
Proof. induction l as [|x l IH]; intros [|i] v H Hv; inversion H; subst; cbn; auto. Qed.
Lemma nth_firstn {A} (l : list A) : forall n i d, (i < n)%nat -> nth i (firstn n l) d = nth i l d.
Proof. induction l as [|x l IH]; intros [|n] [|i] d H; try lia; try reflexivity. cbn [firstn nth]. apply IH. lia. Qed.
Lemma firstn_aset {A} (l : list A) : forall n v, (n < length l)%nat -> firstn (S n) (aset l n v) = firstn n l ++ [v].
Proof. induction l as [|x l IH]; intros [|n] v H; cbn in *; try lia; [reflexivity|]. f_equal. apply IH. lia. Qed.
Lemma combine_seq : forall (a b : list Z), length a = length b -> combine a b = map (fun j => (nth j a 0, nth j b 0)) (seq 0 (length a)).
Proof.
  induction a as [|x a IH]; intros [|y b] H; cbn in H; try lia; [reflexivity|]. cbn [combine length seq map nth]. f_equal.
  rewrite IH by lia. rewrite <- seq_shift, map_map. reflexivity.
Qed.
Lemma list8 (h : list Z) : length h = 8%nat -> h = [at_ h 0; at_ h 1; at_ h 2; at_ h 3; at_ h 4; at_ h 5; at_ h 6; at_ h 7].
Proof. intros H. do 8 (destruct h as [|? h]; [discriminate|]). destruct h; [reflexivity|discriminate]. Qed.

Section Block.
Variables (C : sha) (P : sha_par).
Hypothesis HM : matches C P.
Let w := W P.
Definition inw (x : Z) : Prop := 0 <= x < 2 ^ W P.
Lemma wpos : 0 < W P. Proof. destruct (mW2 _ _ HM) as [-> | ->]; lia. Qed.
Lemma mod_inw x : inw (x mod 2 ^ W P).
Proof. apply Z.mod_pos_bound. apply pow2_pos. pose proof wpos. lia. Qed.

Lemma rotw_ROTR n x : 0 <= n <= W P -> inw x -> rotw C n x = ROTR P n x.
Proof.
  intros Hn Hx. unfold rotw, ROTR, wrapu. rewrite (mW _ _ HM). pose proof wpos as Hw.
  rewrite Z.shiftr_div_pow2, Z.shiftl_mul_pow2 by lia.
  assert (E : 2 ^ W P = 2 ^ n * 2 ^ (W P - n)) by (rewrite <- Z.pow_add_r by lia; f_equal; lia).
  pose proof (pow2_pos n ltac:(lia)) as P1. pose proof (pow2_pos (W P - n) ltac:(lia)) as P2.
  replace (x * 2 ^ (W P - n) mod 2 ^ W P) with ((x mod 2 ^ n) * 2 ^ (W P - n)).
  2:{ rewrite E. rewrite Z.mul_mod_distr_r by lia. reflexivity. }
  apply lor_disjoint; [lia|]. split; [apply Z.div_pos; [apply Hx|lia]|]. apply Z.div_lt_upper_bound; [lia|]. rewrite <- E. apply Hx.
Qed.
Lemma ROTR_inw n x : 0 <= n <= W P -> inw x -> inw (ROTR P n x).
Proof.
  intros Hn Hx. rewrite <- rotw_ROTR by assumption. unfold rotw. rewrite (mW _ _ HM). unfold wrapu. pose proof wpos.
  apply lor_range; [lia| |apply mod_inw]. rewrite Z.shiftr_div_pow2 by lia. pose proof (pow2_pos n ltac:(lia)). unfold inw in Hx.
  split; [apply Z.div_pos; lia|]. apply Z.le_lt_trans with x; [|lia]. apply Z.div_le_upper_bound; [lia|].
  rewrite <- (Z.mul_1_l x) at 1. apply Z.mul_le_mono_nonneg_r; lia.
Qed.
Lemma SHR_inw n x : 0 <= n <= W P -> inw x -> inw (SHR n x).
Proof.
  intros Hn Hx. unfold SHR. pose proof (pow2_pos n ltac:(lia)). unfold inw in *.
  split; [apply Z.div_pos; lia|]. apply Z.le_lt_trans with x; [|lia]. apply Z.div_le_upper_bound; [lia|].
  rewrite <- (Z.mul_1_l x) at 1. apply Z.mul_le_mono_nonneg_r; lia.
Qed.
Lemma rrr_Big p x : amounts_ok (W P) p -> inw x -> rrr C p x = Big P p x.
Proof. destruct p as [[a b] c]. intros [Ha [Hb Hc]] Hx. unfold rrr, Big. rewrite !rotw_ROTR by assumption. reflexivity. Qed.
Lemma rrs_Small p x : amounts_ok (W P) p -> inw x -> rrs C p x = Small P p x.
Proof. destruct p as [[a b] c]. intros [Ha [Hb Hc]] Hx. unfold rrs, Small, shrw, SHR. rewrite !rotw_ROTR by assumption. rewrite Z.shiftr_div_pow2 by lia. reflexivity. Qed.
Lemma chw_Ch x y z : chw C x y z = Ch P x y z.
Proof. unfold chw, Ch, Not. rewrite (mW _ _ HM). reflexivity. Qed.
Lemma wadd_mod x y : wadd C x y = (x + y) mod 2 ^ W P.
Proof. unfold wadd, wrapu. rewrite (mW _ _ HM). reflexivity. Qed.


(** ** message schedule *)
Lemma schedule_length n blk : length (schedule P n blk) = (length blk + n)%nat.
Proof. induction n as [|n IH]; cbn [schedule]; [lia|]. rewrite app_length, IH. cbn [length]. lia. Qed.
Lemma schedule_inw n blk : Forall inw blk -> Forall inw (schedule P n blk).
Proof. intros H. induction n as [|n IH]; cbn [schedule]; [exact H|]. apply Forall_app. split; [exact IH|]. constructor; [apply mod_inw|constructor]. Qed.
Lemma zero_inw : inw 0. Proof. split; [lia|]. apply pow2_pos. pose proof wpos. lia. Qed.
Lemma expand_ok wl : length wl = rounds P -> Forall inw wl -> forall m, (16 + m <= rounds P)%nat ->
  let r := fold_left (expand_step C) (seq 16 m) wl in
  length r = rounds P /\ Forall inw r /\ firstn (16 + m) r = schedule P m (firstn 16 wl).
Proof.
  intros Hl Hw. induction m as [|m IH]; intros Hm; [cbn [seq fold_left schedule]; rewrite Nat.add_0_r; auto|].
  cbv zeta. rewrite seq_S, fold_left_app. destruct (IH ltac:(lia)) as [L [F E]].
  set (r := fold_left (expand_step C) (seq 16 m) wl) in *. clearbody r. cbn [fold_left].
  assert (N : forall i, (i < 16 + m)%nat -> nth i r 0 = nth i (schedule P m (firstn 16 wl)) 0) by (intros i Hi; rewrite <- E; symmetry; apply nth_firstn; exact Hi).
  assert (SL : length (schedule P m (firstn 16 wl)) = (16 + m)%nat) by (rewrite <- E, firstn_length; lia).
  assert (RW : forall i, inw (nth i r 0)) by (intros i; apply Forall_nth_ok; [exact F|apply zero_inw]).
  unfold expand_step, at_. rewrite !wadd_mod, (mT0 _ _ HM), (mT1 _ _ HM).
  rewrite !rrs_Small by (first [apply (aT0 _ _ HM)|apply (aT1 _ _ HM)|apply RW]). rewrite add4_mod.
  split; [rewrite aset_length; exact L|]. split; [apply Forall_aset; [exact F|apply mod_inw]|].
  replace (16 + S m)%nat with (S (16 + m)) by lia. rewrite firstn_aset by lia. cbn [schedule].
  rewrite E, SL, !N by lia. reflexivity.
Qed.
Lemma expand_spec wl : length wl = rounds P -> Forall inw wl ->
  length (expand C wl) = rounds P /\ Forall inw (expand C wl) /\ expand C wl = schedule P (rounds P - 16) (firstn 16 wl).
Proof.
  intros Hl Hw. unfold expand. rewrite (mR _ _ HM). pose proof (mR2 _ _ HM).
  destruct (expand_ok wl Hl Hw (rounds P - 16) ltac:(lia)) as [L [F E]]. cbv zeta in *. split; [exact L|]. split; [exact F|].
  rewrite <- E. symmetry. apply firstn_all2. lia.
Qed.

(** ** rounds *)
Definition tol (v : vars) : list Z := let '(a, b, c, d, e, f, g, h) := v in [a; b; c; d; e; f; g; h].
Lemma round_step_ok wl v j : Forall inw (tol v) -> tol (round_step C wl v j) = step P (tol v) (nth j (K P) 0, nth j wl 0) /\ Forall inw (tol (round_step C wl v j)).
Proof.
  destruct v as [[[[[[[a b] c] d] e] f] g] h]. intros H. unfold tol in H. repeat match goal with X : Forall _ (_ :: _) |- _ => inversion X; clear X; subst end.
  unfold round_step, tol, step, at_, fst, snd. rewrite !wadd_mod, (mK _ _ HM), (mS0 _ _ HM), (mS1 _ _ HM), chw_Ch.
  rewrite !rrr_Big by (first [apply (aS0 _ _ HM)|apply (aS1 _ _ HM)|assumption]). split.
  - unfold majw, Maj. rewrite (add5_mod h (Big P (big1 P) e) (Ch P e f g)), !Zplus_mod_idemp_l, !add_mod_r'. reflexivity.
  - repeat apply Forall_cons; try apply Forall_nil; first [assumption|apply mod_inw].
Qed.
Lemma rounds_ok wl : forall js v, Forall inw (tol v) ->
  tol (fold_left (round_step C wl) js v) = fold_left (step P) (map (fun j => (nth j (K P) 0, nth j wl 0)) js) (tol v) /\ Forall inw (tol (fold_left (round_step C wl) js v)).
Proof.
  induction js as [|j js IH]; intros v H; [split; [reflexivity|exact H]|]. cbn [fold_left map].
  destruct (round_step_ok wl v j H) as [E F]. destruct (IH _ F) as [E2 F2]. split; [rewrite E2, E; reflexivity|exact F2].
Qed.
Definition transform_h (h blk : list Z) : list Z := compress P h blk.
Lemma transform_ok s : length (h_w s) = rounds P -> Forall inw (h_w s) -> length (h_h s) = 8%nat -> Forall inw (h_h s) ->
  let s' := transform C s in
  h_len0 s' = h_len0 s /\ h_len1 s' = h_len1 s /\ h_h s' = compress P (h_h s) (firstn 16 (h_w s))
  /\ length (h_w s') = rounds P /\ Forall inw (h_w s') /\ length (h_h s') = 8%nat /\ Forall inw (h_h s').
Proof.
  intros Hwl Hw Hhl Hh. cbv zeta. unfold transform. destruct (expand_spec (h_w s) Hwl Hw) as [L [F E]].
  set (wl := expand C (h_w s)) in *. clearbody wl. rewrite (mR _ _ HM).
  set (v0 := (at_ (h_h s) 0, at_ (h_h s) 1, at_ (h_h s) 2, at_ (h_h s) 3, at_ (h_h s) 4, at_ (h_h s) 5, at_ (h_h s) 6, at_ (h_h s) 7)).
  assert (V0 : tol v0 = h_h s) by (symmetry; apply list8; exact Hhl).
  destruct (rounds_ok wl (seq 0 (rounds P)) v0 ltac:(rewrite V0; exact Hh)) as [E2 F2]. rewrite V0 in E2.
  destruct (fold_left (round_step C wl) (seq 0 (rounds P)) v0) as [[[[[[[a b] c] d] e] f] g] hh]. cbn [h_len0 h_len1 h_h h_w].
  split; [reflexivity|]. split; [reflexivity|]. split; [|].
  - unfold compress. rewrite <- E. rewrite combine_seq by (rewrite (mKl _ _ HM); congruence). rewrite (mKl _ _ HM), <- E2.
    rewrite (list8 (h_h s) Hhl) at 9. rewrite !wadd_mod. reflexivity.
  - split; [exact L|]. split; [exact F|]. split; [reflexivity|]. rewrite !wadd_mod. repeat apply Forall_cons; try apply Forall_nil; apply mod_inw.
Qed.
End Block.
