(** C33: the random generator. *)
From Verif Require Import Base.Word Base.Arr Model.Sha2 Model.Rand Spec.Bytes Spec.Sha2Spec Spec.RandSpec Proof.Sha2Block Proof.Sha2Stream Proof.Sha2Mac Proof.Sha3Stream Proof.RandProof.

(** Whatever the object went through before, seed(n, raw) followed by k calls of getbyte returns the first k bytes of the sequence that raw[..n] determines. *)
Theorem C33_stream bd r n raw k : (0 < n <= length raw)%nat -> bytes raw -> 8 * (Z.of_nat n + 128) < 2 ^ 32 ->
  exists r1 r2, rnd_seed bd r n raw = Some r1 /\ getbytes bd k r1 = Some (map (random_byte (firstn n raw)) (seq 0 k), r2).
Proof.
  intros [N Hl] Hb F. destruct (seed_ok bd r n raw N Hl Hb) as [r1 [E1 S1]]; [destruct bd; [exact F|exact I]|].
  destruct (getbytes_ok bd _ k 0 r1 S1) as [r2 [E2 _]]. exists r1, r2. split; assumption.
Qed.
(** seeding forgets the history: the whole object afterwards is the same *)
Theorem C33_history_independent bd r r' n raw : (0 < n <= length raw)%nat -> bytes raw -> 8 * (Z.of_nat n + 128) < 2 ^ 32 ->
  rnd_seed bd r n raw = rnd_seed bd r' n raw.
Proof.
  intros [N Hl] Hb F. assert (F' : fits SHA256 bd (Z.of_nat n + 128)) by (destruct bd; [exact F|exact I]).
  destruct (seed_ok bd r n raw N Hl Hb F') as [r1 [-> S1]]. destruct (seed_ok bd r' n raw N Hl Hb F') as [r2 [-> S2]]. rewrite (seeded_unique _ _ _ _ S1 S2). reflexivity.
Qed.
(** only the first n bytes matter *)
Theorem C33_prefix_only bd r n raw raw' : (n <= length raw)%nat -> (n <= length raw')%nat -> firstn n raw = firstn n raw' -> rnd_seed bd r n raw = rnd_seed bd r n raw'.
Proof.
  intros H1 H2 E. unfold rnd_seed. replace (length raw <? n)%nat with false by (symmetry; apply Nat.ltb_ge; exact H1). replace (length raw' <? n)%nat with false by (symmetry; apply Nat.ltb_ge; exact H2). rewrite E. reflexivity.
Qed.
(** 32 bytes form one SHA-256 digest *)
Theorem C33_blocks raw k : map (random_byte raw) (seq (32 * k) 32) = pool_block (start raw) k /\ length (pool_block (start raw) k) = 32%nat /\ bytes (pool_block (start raw) k).
Proof.
  assert (L : length (pool_block (start raw) k) = 32%nat) by apply (SHA2_length sha256 SHA256 m256).
  split; [|split; [exact L|apply SHA2_bytes]]. apply nth_ext with (d := 0) (d' := 0); [rewrite map_length, seq_length; lia|]. rewrite map_length, seq_length. intros i Hi.
  rewrite (nth_indep _ 0 (random_byte raw 0)) by (rewrite map_length, seq_length; exact Hi). rewrite map_nth, seq_nth by exact Hi. unfold random_byte.
  replace ((32 * k + i) / 32)%nat with k by (apply (Nat.div_unique _ _ _ i); lia). replace ((32 * k + i) mod 32)%nat with i by (apply (Nat.mod_unique _ _ k); lia). reflexivity.
Qed.

(** No history of the public calls, from a fresh object, panics: the pool is never indexed outside, and every byte returned is a byte. *)
Inductive call := Seed (raw : list Z) | GetByte | Clean.
Definition do_call (bd : build) (r : rnd) (c : call) : option (list Z * rnd) :=
  match c with
  | Seed raw => r <- rnd_seed bd r (length raw) raw ;; Some ([], r)
  | GetByte => p <- getbyte bd r ;; Some ([fst p], snd p)
  | Clean => Some ([], rnd_clean r)
  end.
Fixpoint do_calls (bd : build) (r : rnd) (cs : list call) : option (list Z * rnd) :=
  match cs with
  | [] => Some ([], r)
  | c :: cs => p <- do_call bd r c ;; q <- do_calls bd (snd p) cs ;; Some (fst p ++ fst q, snd q)
  end.
Definition call_fits (bd : build) (c : call) : Prop :=
  match c with Seed raw => bytes raw /\ 8 * (Z.of_nat (length raw) + 128) < 2 ^ 32 | _ => True end.
Lemma do_call_sane bd r c : sane r -> call_fits bd c -> exists out r', do_call bd r c = Some (out, r') /\ bytes out /\ sane r'.
Proof.
  intros S F. destruct c as [raw| |]; cbn [do_call].
  - destruct F as [B F]. destruct (seed_sane bd r (length raw) raw (le_n _) B) as [r' [E S']]; [destruct bd; [exact F|exact I]|]. rewrite E. cbn [bind]. exists [], r'. split; [reflexivity|]. split; [constructor|exact S'].
  - destruct (getbyte_sane bd r S) as [x [r' [E [X S']]]]. rewrite E. cbn [bind fst snd]. exists [x], r'. split; [reflexivity|]. split; [repeat constructor; apply X|exact S'].
  - exists [], (rnd_clean r). split; [reflexivity|]. split; [constructor|]. split; [cbn; lia|]. split; [reflexivity|]. apply Forall_repeat. unfold is_byte. lia.
Qed.
Theorem C33_never_panics bd cs : Forall (call_fits bd) cs -> exists out r, do_calls bd rnd_new cs = Some (out, r) /\ bytes out /\ (pool_ptr r < 32)%nat /\ length (pool r) = 32%nat.
Proof.
  assert (G : forall cs r, sane r -> Forall (call_fits bd) cs -> exists out r', do_calls bd r cs = Some (out, r') /\ bytes out /\ sane r').
  { clear cs. induction cs as [|c cs IH]; intros r S F; [exists [], r; split; [reflexivity|]; split; [constructor|exact S]|].
    apply Forall_cons_iff in F. destruct F as [F1 F2]. destruct (do_call_sane bd r c S F1) as [o1 [r1 [E1 [B1 S1]]]]. destruct (IH r1 S1 F2) as [o2 [r2 [E2 [B2 S2]]]].
    cbn [do_calls]. rewrite E1. cbn [bind fst snd]. rewrite E2. cbn [bind fst snd]. exists (o1 ++ o2), r2. split; [reflexivity|]. split; [apply Forall_app; split; assumption|exact S2]. }
  intros F. destruct (G cs rnd_new) as [out [r [E [B [P [L _]]]]]]; [|exact F|exists out, r; auto].
  split; [cbn; lia|]. split; [reflexivity|]. apply Forall_repeat. unfold is_byte. lia.
Qed.
(** a buffer shorter than the announced length panics *)
Theorem C33_short_buffer_panics bd r n raw : (length raw < n)%nat -> rnd_seed bd r n raw = None.
Proof.
  intros H. unfold rnd_seed. replace (0 <? n)%nat with true by (symmetry; apply Nat.ltb_lt; lia). replace (length raw <? n)%nat with true by (symmetry; apply Nat.ltb_lt; exact H). reflexivity.
Qed.
(** The claim "whatever the object's earlier history" is false for an empty seed: seed(0, _) leaves the borrow (and the position) of the old generator in place,
    and the stream depends on it.  Two objects that differ in nothing but the borrow: *)
Theorem C33_empty_seed_history_refuted : let r b := mkrnd (repeat 7 21) 0 b 0 (repeat 0 32) in
  option_map pool (rnd_seed Release (r 0) 0 []) <> option_map pool (rnd_seed Release (r 1) 0 []).
Proof.
  intros r H. assert (E : (let f o := match o with Some l => nth 0 l 0 | None => 0 end in f (option_map pool (rnd_seed Release (r 0) 0 [])) =? f (option_map pool (rnd_seed Release (r 1) 0 []))) = false) by (unfold r; vm_compute; reflexivity).
  rewrite H in E. cbv zeta in E. rewrite Z.eqb_refl in E. discriminate E.
Qed.
(** what an empty seed does from a fresh object: 32 bytes of SHA-256(0^128), for ever *)
Example empty_seed_fresh : option_map pool (rnd_seed Release rnd_new 0 []) = Some (SHA2 SHA256 (repeat 0 128)).
Proof. vm_compute. reflexivity. Qed.
(** the hypotheses hold for a 3-byte seed *)
Example seed_fits bd : (0 < 3 <= length [1; 2; 3])%nat /\ bytes [1; 2; 3] /\ 8 * (Z.of_nat 3 + 128) < 2 ^ 32 /\ Forall (call_fits bd) [Seed [1; 2; 3]; GetByte; Clean; GetByte; Seed []].
Proof. repeat (split || constructor); unfold is_byte; try lia; reflexivity. Qed.

Print Assumptions C33_stream.
Print Assumptions C33_history_independent.
Print Assumptions C33_prefix_only.
Print Assumptions C33_blocks.
Print Assumptions C33_never_panics.
Print Assumptions C33_short_buffer_panics.
Print Assumptions C33_empty_seed_history_refuted.
