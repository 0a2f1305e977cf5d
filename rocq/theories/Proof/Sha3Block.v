(** The SHA-3 permutation of the model = Keccak-f of FIPS 202. *)
From Verif Require Import Base.Word Base.Arr Model.Sha3 Spec.Bytes Spec.Sha3Spec Proof.AesBase Proof.GcmBase Proof.Sha2Block.

Definition u64 (x : Z) : Prop := 0 <= x < 2 ^ 64.
(** the state in the order of FIPS 202 *)
Definition tr (s : list Z) : list Z := map (fun p => sat s (p mod 5) (p / 5)) (seq 0 25).
Definition ok25 (s : list Z) : Prop := length s = 25%nat /\ Forall u64 s.

Lemma rotl_ROTL n x : 0 < n < 64 -> u64 x -> rotl x n = ROTL n x.
Proof.
  intros Hn Hx. unfold rotl, ROTL, wrapu, u64 in *. rewrite Z.shiftl_mul_pow2, Z.shiftr_div_pow2 by lia.
  assert (E : 2 ^ 64 = 2 ^ (64 - n) * 2 ^ n) by (rewrite <- Z.pow_add_r by lia; f_equal; lia).
  pose proof (pow2_pos n ltac:(lia)) as P1. pose proof (pow2_pos (64 - n) ltac:(lia)) as P2.
  replace ((x * 2 ^ n) mod 2 ^ 64) with ((x mod 2 ^ (64 - n)) * 2 ^ n) by (rewrite E, Z.mul_mod_distr_r by lia; reflexivity).
  rewrite lor_disjoint'; [lia|lia|]. split; [apply Z.div_pos; lia|]. apply Z.div_lt_upper_bound; [lia|]. rewrite <- E. apply Hx.
Qed.
Lemma ROTL_0 x : u64 x -> ROTL 0 x = x.
Proof. unfold u64, ROTL. intros H. rewrite Z.mul_1_r, Z.mod_small by exact H. rewrite Z.div_small by exact H. lia. Qed.
Lemma ROTL_u64 n x : 0 <= n < 64 -> u64 x -> u64 (ROTL n x).
Proof.
  intros Hn Hx. destruct (Z.eq_dec n 0) as [->|N]; [rewrite ROTL_0; assumption|]. rewrite <- rotl_ROTL by (try assumption; lia).
  unfold rotl, u64, wrapu in *. apply lor_range; [lia|apply Z.mod_pos_bound; lia|]. rewrite Z.shiftr_div_pow2 by lia. pose proof (pow2_pos (64 - n) ltac:(lia)).
  split; [apply Z.div_pos; lia|]. apply Z.le_lt_trans with x; [|lia]. apply Z.div_le_upper_bound; [lia|]. rewrite <- (Z.mul_1_l x) at 1. apply Z.mul_le_mono_nonneg_r; lia.
Qed.
Lemma xor_u64 x y : u64 x -> u64 y -> u64 (Z.lxor x y).
Proof. unfold u64. apply lxor_range. lia. Qed.
Lemma not_u64 x : u64 x -> u64 (2 ^ 64 - 1 - x).
Proof. unfold u64. lia. Qed.
Lemma and_u64 x y : u64 x -> u64 y -> u64 (Z.land x y).
Proof. unfold u64. intros. apply land_range; lia. Qed.
Lemma nth_u64 s i : Forall u64 s -> u64 (nth i s 0).
Proof. intros H. apply Forall_nth_ok; [exact H|]. unfold u64. lia. Qed.

Ltac lanes25 s H := let L := fresh "L" in let F := fresh "F" in destruct H as [L F];
  do 25 (destruct s as [|? s]; [discriminate L|]); destruct s; [|discriminate L]; clear L;
  repeat match goal with X : Forall _ (_ :: _) |- _ => inversion X; clear X; subst end.
Lemma theta_tr s : ok25 s -> tr (theta_step s) = theta (tr s).
Proof.
  intros H. pose proof (proj2 H) as F. assert (R : forall i j, u64 (sat s i j)) by (intros; apply nth_u64; exact F).
  assert (CX : forall i, u64 (colx s i)) by (intros; unfold colx; repeat apply xor_u64; apply R).
  assert (RT : forall i, rotl (colx s i) 1 = ROTL 1 (colx s i)) by (intros; apply rotl_ROTL; [lia|apply CX]).
  assert (TH : theta_step s = flat_map (fun i => map (fun j => Z.lxor (sat s i j) (Z.lxor (colx s ((i + 4) mod 5)) (ROTL 1 (colx s ((i + 1) mod 5))))) (seq 0 5)) (seq 0 5)).
  { unfold theta_step. cbn [seq map flat_map at_ nth app]. rewrite !RT. reflexivity. }
  rewrite TH. clear. unfold theta, build_state, tr, col, lane, xor5, colx. cbn [seq map flat_map app Nat.modulo Nat.div Nat.divmod Nat.add Nat.mul Nat.sub fst snd sat at_ ix nth]. reflexivity.
Qed.
Lemma theta_ok s : ok25 s -> ok25 (theta_step s).
Proof.
  intros [L F]. assert (R : forall i j, u64 (sat s i j)) by (intros; apply nth_u64; exact F).
  assert (CX : forall i, u64 (colx s i)) by (intros; unfold colx; repeat apply xor_u64; apply R).
  assert (RT : forall i, u64 (rotl (colx s i) 1)) by (intros; rewrite rotl_ROTL by (try apply CX; lia); apply ROTL_u64; [lia|apply CX]).
  split; [reflexivity|]. unfold theta_step. cbn [seq map flat_map at_ nth app]. repeat apply Forall_cons; try apply Forall_nil; apply xor_u64; try apply R; apply xor_u64; try apply CX; apply RT.
Qed.
Lemma rhopi_tr s : ok25 s -> tr (rhopi_step s) = pi (rho (tr s)).
Proof.
  intros H. pose proof (proj2 H) as F. assert (R : forall i, u64 (at_ s i)) by (intros; apply nth_u64; exact F).
  assert (OFF : rho_offsets = [0; 1; 62; 28; 27; 36; 44; 6; 55; 20; 3; 10; 43; 25; 39; 41; 45; 15; 21; 8; 18; 2; 61; 56; 14]) by (vm_compute; reflexivity).
  unfold pi, rho, build_state. rewrite OFF. unfold rhopi_step, tr. cbn [seq map flat_map app Nat.modulo Nat.div Nat.divmod Nat.add Nat.mul Nat.sub fst snd sat at_ ix nth aset repeat lane].
  change (fun (i j : nat) => nth (ix i j) s 0) with (sat s). unfold sat, ix in *. cbn [Nat.add Nat.mul].
  rewrite !rotl_ROTL by (first [lia | apply R]). rewrite ROTL_0 by apply R. reflexivity.
Qed.
Lemma rhopi_ok s : ok25 s -> ok25 (rhopi_step s).
Proof.
  intros [L F]. assert (R : forall i j, u64 (sat s i j)) by (intros; apply nth_u64; exact F).
  assert (RT : forall i j n, 0 < n < 64 -> u64 (rotl (sat s i j) n)) by (intros i j n Hn; rewrite rotl_ROTL by (try apply R; lia); apply ROTL_u64; [lia|apply R]).
  split; [reflexivity|]. unfold rhopi_step. cbn [aset repeat ix Nat.add Nat.mul]. repeat apply Forall_cons; try apply Forall_nil; first [apply R|apply RT; lia].
Qed.
Lemma chi_tr s : tr (chi_step s) = chi (tr s).
Proof. unfold chi, build_state, chi_step, tr, lane. cbn [seq map flat_map app Nat.modulo Nat.div Nat.divmod Nat.add Nat.mul Nat.sub fst snd sat at_ ix nth]. reflexivity. Qed.
Lemma chi_ok s : ok25 s -> ok25 (chi_step s).
Proof.
  intros [L F]. assert (R : forall i j, u64 (sat s i j)) by (intros; apply nth_u64; exact F). split; [reflexivity|].
  unfold chi_step. cbn [seq map flat_map at_ nth app]. repeat apply Forall_cons; try apply Forall_nil; apply xor_u64; try apply R; apply and_u64; try apply not_u64; apply R.
Qed.
Lemma RC_ok : RC = map round_constant (seq 0 24).
Proof. vm_compute. reflexivity. Qed.
Lemma RC_u64 k : u64 (at_ RC k).
Proof. apply nth_u64. unfold RC. repeat (apply Forall_cons; [unfold u64; lia|]). apply Forall_nil. Qed.
Lemma iota_tr s k : length s = 25%nat -> (k < 24)%nat -> tr (aset s (ix 0 0) (Z.lxor (sat s 0 0) (at_ RC k))) = iota k (tr s).
Proof.
  intros L Hk. assert (E : at_ RC k = round_constant k) by (unfold at_; rewrite RC_ok; apply (nth_map_seq round_constant 0 24 k 0 Hk)). rewrite E. unfold iota. generalize (round_constant k). intros c. clear E Hk.
  unfold tr. change (lane (map (fun p : nat => sat s (p mod 5) (p / 5)) (seq 0 25)) 0 0) with (sat s 0 0).
  unfold sat, at_. change (ix 0 0) with 0%nat. cbn [seq map Nat.modulo Nat.div Nat.divmod Nat.sub fst snd ix Nat.mul Nat.add aset]. destruct s; [discriminate L|reflexivity].
Qed.
Lemma round_ok s k : ok25 s -> ok25 (round s k).
Proof.
  intros H. unfold round. pose proof (chi_ok _ (rhopi_ok _ (theta_ok _ H))) as [L F]. split; [rewrite aset_length; exact L|]. apply Forall_aset; [exact F|]. apply xor_u64; [apply nth_u64; exact F|apply RC_u64].
Qed.
Lemma round_tr s k : ok25 s -> (k < 24)%nat -> tr (round s k) = iota k (chi (pi (rho (theta (tr s))))).
Proof.
  intros H Hk. unfold round. rewrite iota_tr; [|exact (proj1 (chi_ok _ (rhopi_ok _ (theta_ok _ H))))|exact Hk]. rewrite chi_tr, rhopi_tr by (apply theta_ok; exact H). rewrite theta_tr by exact H. reflexivity.
Qed.
Definition kround (A : list Z) (ir : nat) : list Z := iota ir (chi (pi (rho (theta A)))).
Lemma kround_tr s k : ok25 s -> (k < 24)%nat -> tr (round s k) = kround (tr s) k.
Proof. intros H Hk. exact (round_tr s k H Hk). Qed.
Lemma fl_cons {A B} (f : A -> B -> A) x l a : fold_left f (x :: l) a = fold_left f l (f a x).
Proof. reflexivity. Qed.
Lemma fl_nil {A B} (f : A -> B -> A) a : fold_left f [] a = a.
Proof. reflexivity. Qed.
Lemma rounds_tr ks : forall s, (forall k, In k ks -> (k < 24)%nat) -> ok25 s -> ok25 (fold_left round ks s) /\ tr (fold_left round ks s) = fold_left kround ks (tr s).
Proof.
  induction ks as [|k ks IH]; intros s B H.
  - rewrite !fl_nil. split; [exact H|reflexivity].
  - rewrite !fl_cons. rewrite <- kround_tr; [|exact H|apply B; left; reflexivity].
    pose proof (round_ok s k H) as H2. revert H2. generalize (round s k). intros s2 H2. apply IH; [intros k' Hk'; apply B; right; exact Hk'|exact H2].
Qed.
Lemma in24 k : In k (seq 0 24) -> (k < 24)%nat.
Proof. intros H. apply in_seq in H. lia. Qed.
Lemma transform_ok s : ok25 s -> ok25 (transform s) /\ tr (transform s) = keccak_f (tr s).
Proof. intros H. exact (rounds_tr (seq 0 24) s in24 H). Qed.
