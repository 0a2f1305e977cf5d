(** C42, C43, C54: NewHope. *)
From Verif Require Import Base.Word Base.Arr Model.Sha2 Model.Rand Model.NhsTables Model.Nhs Spec.Bytes Spec.Sha2Spec Spec.Sha3Spec Spec.NhsSpec Proof.Sha2Block Proof.Sha2Stream Proof.Sha3Stream Proof.RandProof Proof.NhsRed Proof.NhsNtt Proof.NhsRing Proof.NhsCodec Proof.NhsApi.
From Coq Require Import Lia.

(** congruence modulo q, as used in the statements *)
Definition eqmod (a b : Z) : Prop := (a - b) mod q = 0.
Lemma cgq_eqmod a b : cgq a b <-> eqmod a b.
Proof.
  rewrite cgq_iff. unfold eqmod. split.
  - intros [k ->]. replace (b + k * q - b) with (k * q) by ring. apply Z.mod_mul. discriminate.
  - intros H. apply Z.mod_divide in H; [|discriminate]. destruct H as [k H]. exists k. lia.
Qed.
(** a coefficient array: 1024 numbers between 0 and b *)
Definition coeffs (b : Z) (l : list Z) : Prop := length l = 1024%nat /\ forall i, (i < 1024)%nat -> 0 <= at_ l i <= b.

(** ** C42: codecs and reduction *)
(** Montgomery reduction is exact and stays below q plus the quotient by 2^32; no multiplication or addition of it overflows *)
Theorem C42_redc t : 0 <= t < 2 ^ 60 -> exists z, redc t = Some z /\ eqmod (z * 2 ^ 32) t /\ 0 <= z <= q + t / 2 ^ 32.
Proof.
  intros H. destruct (redc_spec t H) as [z [E [C [L U]]]]. exists z. split; [exact E|]. split; [apply cgq_eqmod; exact C|]. split; [exact L|]. unfold RR, q in *. pose proof (Z.div_mod t (2 ^ 32) ltac:(discriminate)). pose proof (Z.mod_pos_bound t (2 ^ 32) ltac:(reflexivity)). change (2 ^ 32) with 4294967296 in *. lia.
Qed.
Theorem C42_modmul a b : 0 <= a < 2 ^ 31 -> 0 <= b < 2 ^ 29 -> exists z, modmul a b = Some z /\ eqmod (z * 2 ^ 32) (a * b) /\ 0 <= z <= q + a * b / 2 ^ 32 + 1.
Proof.
  intros A B. destruct (modmul_spec a b (a * b / 2 ^ 32 + 1) A B) as [z [E [C L]]].
  - unfold RR. pose proof (Z.div_mod (a * b) (2 ^ 32) ltac:(discriminate)). pose proof (Z.mod_pos_bound (a * b) (2 ^ 32) ltac:(reflexivity)). change (2 ^ 32) with 4294967296 in *. lia.
  - exists z. split; [exact E|]. split; [apply cgq_eqmod; exact C|]. lia.
Qed.
(** converting to Montgomery form and back *)
Theorem C42_nres x : 0 <= x < 2 ^ 31 -> exists z, nres x = Some z /\ eqmod z (2 ^ 32 * x) /\ exists y, redc (as_u64 z) = Some y /\ eqmod y x.
Proof.
  intros H. destruct (nres_spec x H) as [z [E [C R]]]. exists z. split; [exact E|]. split; [apply cgq_eqmod; exact C|].
  assert (Z1 : 0 <= z < 2 ^ 31). { assert (x * R2MODP / RR <= 2831) by (apply Z.lt_succ_r, Z.div_lt_upper_bound; [reflexivity|unfold R2MODP, RR; change (2 ^ 32) with 4294967296; change (2 ^ 31) with 2147483648 in H; lia]). unfold q in *. change (2 ^ 31) with 2147483648. lia. }
  rewrite u64_id by exact Z1. destruct (redc_spec z) as [y [E2 [C2 _]]]; [change (2 ^ 31) with 2147483648 in Z1; change (2 ^ 60) with 1152921504606846976; lia|].
  exists y. split; [exact E2|]. apply cgq_eqmod. apply cancelR. rewrite C2, C. apply cgq_eq. apply Z.mul_comm.
Qed.
(** packing 14-bit coefficients into bytes loses nothing *)
Theorem C42_pack_unpack l : coeffs 16383 l -> bytes (nhs_pack l) /\ length (nhs_pack l) = 1792%nat /\ nhs_unpack (nhs_pack l) = l.
Proof.
  intros H. pose proof (bnd_b14 16383 l ltac:(lia) H) as F. assert (L : length l = (4 * 256)%nat) by (rewrite (proj1 H); reflexivity).
  destruct (pack_bytes 256 l L F) as [P1 P2]. split; [exact P1|]. split; [rewrite P2; reflexivity|]. exact (unpack_pack 256 l L F).
Qed.
(** every string of 1792 bytes unpacks to 14-bit coefficients *)
Theorem C42_unpack_range b : bytes b -> length b = 1792%nat -> coeffs 16383 (nhs_unpack b).
Proof. exact (unpack_bnd b). Qed.
(** three bits per coefficient survive compression: the error is at most 768 (q/16 rounded up) *)
Theorem C42_compress l : coeffs (4 * q - 1) l -> exists b r, Nhs.compress 128 l = Some b /\ bytes b /\ length b = 384%nat /\ decompress b = Some r /\ length r = 1024%nat /\
  forall i, (i < 1024)%nat -> 0 <= at_ r i < q /\ exists e, -768 <= e <= 768 /\ eqmod (at_ r i) (at_ l i + e).
Proof.
  intros [L H]. destruct (compress_ok 128 l) as [b [E [B [LB D]]]]; [rewrite L; reflexivity|apply Forall_forall; intros v Hv; apply (In_nth _ _ 0) in Hv; destruct Hv as [i [Hi <-]]; rewrite L in Hi; specialize (H i Hi); unfold at_ in H; lia|].
  exists b, (map (fun x => db (cb x)) l). split; [exact E|]. split; [exact B|]. split; [rewrite LB; reflexivity|]. split; [exact D|]. split; [rewrite map_length; exact L|]. intros i Hi.
  assert (Q : at_ (map (fun x => db (cb x)) l) i = db (cb (at_ l i))). { unfold at_. rewrite (nth_indep _ 0 (db (cb 0))) by (rewrite map_length, L; exact Hi). apply (map_nth (fun x => db (cb x))). }
  rewrite Q. destruct (compress_err (at_ l i)) as [e [E1 [E2 E3]]]; [apply H; exact Hi|]. split; [unfold q; lia|]. exists e. split; [exact E1|]. apply cgq_eqmod. exact E2.
Qed.
(** decoding recovers the key from an encoded key plus noise as long as in each group of four coefficients the noise sums to at most 12287 *)
Theorem C42_decode_noise key e p n : length key = 32%nat -> bytes key -> encode key = Some e -> coeffs (q - 1) p -> (forall i, (i < 1024)%nat -> eqmod (at_ p i) (at_ e i + n i)) ->
  (forall i, (i < 256)%nat -> Z.abs (n i) + Z.abs (n (i + 256)%nat) + Z.abs (n (i + 512)%nat) + Z.abs (n (i + 768)%nat) <= 12287) -> decode p = Some key.
Proof.
  intros KL KB E [PL HP] HC HN. destruct (encode_ok key) as [e' [E1 [E2 E3]]]. rewrite E in E1. injection E1 as <-. apply (decode_ok key p n KL KB PL); [intros j Hj; specialize (HP j Hj); lia| |exact HN].
  intros j Hj. rewrite <- (E3 j Hj). apply cgq_eqmod. apply HC. exact Hj.
Qed.
(** and no weaker condition on the sums would do: with a sum of 12288 the all-zero key decodes to ones *)
Theorem C42_decode_bound_tight : exists key e p n, length key = 32%nat /\ bytes key /\ encode key = Some e /\ coeffs (q - 1) p /\ (forall i, (i < 1024)%nat -> eqmod (at_ p i) (at_ e i + n i)) /\
  (forall i, (i < 256)%nat -> Z.abs (n i) + Z.abs (n (i + 256)%nat) + Z.abs (n (i + 512)%nat) + Z.abs (n (i + 768)%nat) <= 12288) /\ decode p <> Some key.
Proof.
  exists (repeat 0 32), (repeat 0 1024), (repeat 3072 1024), (fun _ => 3072). split; [reflexivity|]. split; [apply Forall_repeat; unfold is_byte; lia|]. split; [vm_compute; reflexivity|].
  assert (R : forall a n i, (i < n)%nat -> at_ (repeat a n) i = a). { intros a n i Hi. unfold at_. apply (repeat_spec n a). apply nth_In. rewrite repeat_length. exact Hi. }
  split; [split; [apply repeat_length|intros i Hi; rewrite R by exact Hi; unfold q; lia]|]. split; [intros i Hi; rewrite !R by exact Hi; reflexivity|]. split; [intros; cbn; lia|].
  intros H. assert (F : match decode (repeat 3072 1024) with Some k => at_ k 0 =? 0 | None => true end = false) by (vm_compute; reflexivity). rewrite H in F. discriminate F.
Qed.

(** ** C43: the transforms *)
(** ntt returns the values at the roots of x^1024 + 1 (in Montgomery form) and nothing overflows *)
Theorem C43_ntt_values x : coeffs 500000 x -> exists y, ntt x = Some y /\ coeffs (21 * q + 2) y /\ forall p, (p < 1024)%nat -> eqmod (at_ y p) (2 ^ 32 * value (of_list x) p).
Proof.
  intros H. destruct (ntt_ok x H) as [y [E [B C]]]. exists y. split; [exact E|]. split; [exact B|]. intros p Hp. apply cgq_eqmod. rewrite (C p Hp), (ev_value _ p Hp). reflexivity.
Qed.
(** the points really are the 1024 different roots of x^1024 + 1 *)
Lemma value_root a p p' : root p = root p' -> value a p = value a p'.
Proof. intros E. unfold value. generalize N. intros n. rewrite E. reflexivity. Qed.
Theorem C43_roots p : (p < 1024)%nat -> eqmod (root p ^ 1024) (-1) /\ forall p', (p' < 1024)%nat -> root p = root p' -> p = p'.
Proof.
  intros Hp. split.
  - apply cgq_eqmod. pose proof (zeta_root p Hp) as Z0. change 1024 with (Z.of_nat N). rewrite <- pw_pow. rewrite <- (root_ok p Hp). exact Z0.
  - intros p' Hp' E. destruct (Nat.eq_dec p p') as [D|D]; [exact D|exfalso]. destruct (ev_surj (fun i => if (i =? p)%nat then 1 else 0)) as [a Ha].
    pose proof (Ha p Hp) as A1. pose proof (Ha p' Hp') as A2. cbv beta in A1, A2. rewrite Nat.eqb_refl in A1. replace (p' =? p)%nat with false in A2 by (symmetry; apply Nat.eqb_neq; congruence).
    rewrite (ev_value _ p Hp) in A1. rewrite (ev_value _ p' Hp') in A2. rewrite (value_root a p p' E) in A1. assert (A3 : cgq 1 0) by (rewrite <- A1; exact A2). apply cgq_eqmod in A3. discriminate A3.
Qed.
(** intt undoes ntt (after the reduction that its input range asks for) *)
Theorem C43_intt_inverts x : coeffs 500000 x -> exists y z w, ntt x = Some y /\ poly_hard_reduce y = Some z /\ intt z = Some w /\ coeffs (q - 1) w /\ forall i, (i < 1024)%nat -> at_ w i = at_ x i mod q.
Proof.
  intros H. destruct (ntt_ok x H) as [y [E [B C]]]. destruct (hard_reduce_ok y _ B ltac:(change (2 ^ 31) with 2147483648; unfold q; lia)) as [z [Z1 [Z2 Z3]]]. destruct (intt_ok z) as [w [W1 [W2 [W3 W4]]]]; [refine (bnd_up _ _ _ _ Z2); lia|].
  exists y, z, w. split; [exact E|]. split; [exact Z1|]. split; [exact W1|]. split; [split; [exact W2|intros i Hi; specialize (W3 i Hi); lia]|]. intros i Hi.
  assert (G : cgq (at_ w i) (at_ x i)). { apply (W4 (of_list x)); [|exact Hi]. intros p Hp. rewrite (Z3 p Hp). apply C. exact Hp. }
  apply cgq_iff in G. destruct G as [k G]. specialize (W3 i Hi). apply (Z.mod_unique _ _ (- k)); lia.
Qed.
(** transform, multiply pointwise, transform back: the product modulo x^1024 + 1 *)
Theorem C43_product a b : coeffs 500000 a -> coeffs 500000 b ->
  exists x y z w, ntt a = Some x /\ ntt b = Some y /\ poly_mul x y = Some z /\ intt z = Some w /\ coeffs (q - 1) w /\ forall i, (i < 1024)%nat -> at_ w i = nega (of_list a) (of_list b) i mod q.
Proof.
  intros HA HB. destruct (ntt_ok a HA) as [x [E1 [[L1 B1] C1]]]. destruct (ntt_ok b HB) as [y [E2 [[L2 B2] C2]]].
  destruct (map2_opt_nth modmul (fun p z => 0 <= z <= q + 16 /\ cgq z (RR * (ev (of_list a) p * ev (of_list b) p))) x y) as [z [Z1 [Z2 Z3]]].
  - congruence.
  - rewrite L1. intros p Hp. specialize (B1 p Hp). specialize (B2 p Hp). destruct (modmul_rep (at_ x p) (at_ y p) 16 (ev (of_list a) p) (ev (of_list b) p)) as [z [F1 [F2 F3]]]; [change (2 ^ 31) with 2147483648; unfold q in *; lia|change (2 ^ 29) with 536870912; unfold q in *; lia| |apply C1; exact Hp|apply C2; exact Hp|exists z; auto].
    apply Z.le_trans with ((21 * q + 2) * (21 * q + 2)); [apply Z.mul_le_mono_nonneg; lia|unfold q, RR; change (2 ^ 32) with 4294967296; lia].
  - rewrite L1 in *. destruct (intt_ok z) as [w [W1 [W2 [W3 W4]]]]; [split; [exact Z2|intros p Hp; destruct (Z3 p Hp); lia]|].
    exists x, y, z, w. split; [exact E1|]. split; [exact E2|]. split; [exact Z1|]. split; [exact W1|]. split; [split; [exact W2|intros i Hi; specialize (W3 i Hi); lia]|]. intros i Hi.
    assert (G : cgq (at_ w i) (nega (of_list a) (of_list b) i)). { apply W4; [|exact Hi]. intros p Hp. rewrite (ev_nega _ _ p Hp). apply (Z3 p Hp). }
    apply cgq_iff in G. destruct G as [k G]. specialize (W3 i Hi). apply (Z.mod_unique _ _ (- k)); lia.
Qed.
(** the concrete case 2x^1023 * 3x = -6 *)
Example C43_case : coeffs 500000 (repeat 0 1023 ++ [2]) /\ nega (of_list (repeat 0 1023 ++ [2])) (of_list (0 :: 3 :: repeat 0 1022)) 0 = -6.
Proof.
  split; [|vm_compute; reflexivity]. split; [reflexivity|]. intros i Hi. unfold at_. destruct (Nat.lt_ge_cases i 1023) as [L|L].
  - rewrite app_nth1 by (rewrite repeat_length; exact L). assert (E : nth i (repeat 0 1023) 0 = 0) by (apply (repeat_spec 1023 0); apply nth_In; rewrite repeat_length; exact L). rewrite E. lia.
  - rewrite app_nth2 by (rewrite repeat_length; exact L). rewrite repeat_length. replace (i - 1023)%nat with 0%nat by lia. cbn. lia.
Qed.

(** ** C54: the key exchange
    A generator state is usable when its position is inside its 32-byte pool: by C33_never_panics every state that RAND's functions produce is. *)
Definition usable (g : rnd) : Prop := (pool_ptr g < 32)%nat /\ length (pool g) = 32%nat /\ bytes (pool g).
(** what server_1 sends: the seed and, packed, the values of a*s + e at the roots; what it keeps: the values of s (in Montgomery form).
    seed, e, s come, in this order, from 32 + 4096 + 4096 generator bytes. *)
Theorem C54_server_1 bd g lsb lss : usable g -> (1824 <= lsb)%nat -> (1792 <= lss)%nat ->
  exists seed eb sb g' b s, getbytes bd (32 + (4096 + 4096)) g = Some (seed ++ eb ++ sb, g') /\ length seed = 32%nat /\ length eb = 4096%nat /\ length sb = 4096%nat /\ usable g' /\
  server_1 bd g lsb lss = Some (seed ++ nhs_pack b, nhs_pack s, g') /\ coeffs (q - 1) b /\ coeffs (q - 1) s /\
  (forall p, (p < 1024)%nat -> eqmod (at_ b p) (public_value seed p * value (noise sb) p + value (noise eb) p)) /\
  (forall p, (p < 1024)%nat -> eqmod (at_ s p) (2 ^ 32 * value (noise sb) p)).
Proof.
  intros S L1 L2. destruct (server_1_ok bd g lsb lss S L1 L2) as [seed [eb [sbs [g1 [b [sv [G1 [G2 [G3 [G4 [G5 [G6 [G7 [G8 [G9 [G10 G11]]]]]]]]]]]]]]]]. exists seed, eb, sbs, g1, b, sv.
  repeat (split; [assumption|]). split; intros p Hp; apply cgq_eqmod.
  - rewrite (G9 p Hp), (ev_value _ p Hp), (ev_value _ p Hp). reflexivity.
  - rewrite (G11 p Hp), (ev_value _ p Hp). reflexivity.
Qed.
(** buffers that are too short panic *)
Theorem C54_short_buffers bd g h lsb lss sb luc lkey ss uc : ((lsb < 1824)%nat \/ (lss < 1792)%nat -> server_1 bd g lsb lss = None) /\
  ((length sb < 1824)%nat \/ (luc < 2176)%nat \/ (lkey < 32)%nat -> client bd h sb luc lkey = None) /\ ((length uc < 2176)%nat \/ (length ss < 1792)%nat \/ (lkey < 32)%nat -> server_2 bd ss uc lkey = None).
Proof.
  split; [|split]; intros H.
  - unfold server_1. repeat match goal with |- (_ <- ?e ;; _) = _ => destruct e; cbn [bind]; [|reflexivity] end. destruct (lsb <? SB_LEN)%nat eqn:A; [reflexivity|]. destruct (lss <? POLY_LEN)%nat eqn:B; [reflexivity|]. apply Nat.ltb_ge in A, B. unfold SB_LEN, POLY_LEN in *. lia.
  - unfold client. repeat match goal with |- (_ <- ?e ;; _) = _ => destruct e; cbn [bind]; [|reflexivity] | |- (if ?e then None else _) = _ => let E := fresh "E" in destruct e eqn:E; [reflexivity|]; cbv zeta end.
    apply Bool.orb_false_iff in E0. destruct E0 as [A B]. apply Nat.ltb_ge in E, A, B. unfold SB_LEN, UC_LEN in *. lia.
  - unfold server_2. repeat match goal with |- (_ <- ?e ;; _) = _ => destruct e; cbn [bind]; [|reflexivity] | |- (if ?e then None else _) = _ => let E := fresh "E" in destruct e eqn:E; [reflexivity|]; cbv zeta end.
    apply Nat.ltb_ge in E, E0, E1. unfold POLY_LEN, UC_LEN in *. lia.
Qed.
(** client and server_2 cope with every byte string a peer may send: no panic, and the outputs have their lengths *)
Theorem C54_client_total bd h sb luc lkey : usable h -> bytes sb -> (1824 <= length sb)%nat -> (2176 <= luc)%nat -> (32 <= lkey)%nat ->
  exists uc key h', client bd h sb luc lkey = Some (uc, key, h') /\ bytes uc /\ length uc = 2176%nat /\ bytes key /\ length key = 32%nat /\ usable h'.
Proof.
  intros S B L L1 L2. destruct (client_ok bd h sb luc lkey S B L L1 L2) as [sdb [edb [kb [e2b [h1 [u [c [cs [C1 [C2 [C3 [C4 [C5 [C6 [C7 [C8 [C9 [C10 [C11 [C12 C13]]]]]]]]]]]]]]]]]]]].
  exists (nhs_pack u ++ cs), (SHA3 32 (SHA3 32 kb)), h1. split; [exact C8|]. destruct (pack_len u C9) as [P1 [P2 _]].
  destruct (compress_ok (DEGREE / 8) c) as [cb' [Q1 [Q2 [Q3 Q4]]]]; [rewrite (proj1 C12); reflexivity|apply Forall_forall; intros v Hv; apply (In_nth _ _ 0) in Hv; destruct Hv as [i [Hi <-]]; rewrite (proj1 C12) in Hi; pose proof (proj2 C12 i Hi) as HH; unfold at_ in HH; lia|].
  rewrite C11 in Q1. injection Q1 as <-. split; [apply Forall_app; split; assumption|]. split; [rewrite app_length, P2, Q3; reflexivity|]. split; [apply squeeze_out_bytes|]. split; [apply squeeze_out_len; lia|exact C7].
Qed.
Theorem C54_server_2_total bd ss uc lkey : bytes ss -> bytes uc -> (1792 <= length ss)%nat -> (2176 <= length uc)%nat -> (32 <= lkey)%nat -> exists key, server_2 bd ss uc lkey = Some key /\ bytes key /\ length key = 32%nat.
Proof.
  intros Bs Bu Ls Lu Lk. destruct (server_2_ok bd ss uc lkey Bs Bu Ls Lu Lk) as [pl [c' [key [D1 [D2 [D3 [D4 [D5 [D6 [D7 D8]]]]]]]]]]. exists (SHA3 32 key). split; [exact D7|]. split; [apply squeeze_out_bytes|apply squeeze_out_len; lia].
Qed.
(** Agreement.  With e, s the noise drawn by server_1 and sd, ed, ed2 that drawn by client: whenever the coefficients of e*sd - ed*s + ed2 in
    Z[x]/(x^1024+1), summed in absolute value over each group i, i+256, i+512, i+768, are at most 9215, server_2 computes client's key.
    client's key is SHA3-256(SHA3-256(k)) of the 32 bytes k it drew.  The three parties may be different builds. *)
Theorem C54_agreement bd bd' bd'' g h lsb lss luc lkey lkey' sb ss g' uc key h' : usable g -> usable h -> (32 <= lkey')%nat ->
  server_1 bd g lsb lss = Some (sb, ss, g') -> client bd' h sb luc lkey = Some (uc, key, h') ->
  exists seed eb sbs sdb edb kb e2b, getbytes bd (32 + (4096 + 4096)) g = Some (seed ++ eb ++ sbs, g') /\ getbytes bd' (4096 + (4096 + (32 + 4096))) h = Some (sdb ++ edb ++ kb ++ e2b, h') /\
  length seed = 32%nat /\ length eb = 4096%nat /\ length sbs = 4096%nat /\ length sdb = 4096%nat /\ length edb = 4096%nat /\ length kb = 32%nat /\ length e2b = 4096%nat /\
  key = SHA3 32 (SHA3 32 kb) /\
  ((forall i, (i < 256)%nat -> let n j := Z.abs (nega (noise eb) (noise sdb) j - nega (noise edb) (noise sbs) j + noise e2b j) in
     n i + n (i + 256)%nat + n (i + 512)%nat + n (i + 768)%nat <= 9215) -> server_2 bd'' ss uc lkey' = Some key).
Proof. exact (agreement bd bd' bd'' g h lsb lss luc lkey lkey' sb ss g' uc key h'). Qed.

(** a run that meets the noise condition: both sides seed their generators with nothing, so every 32 bytes they draw are SHA-256(0^128), all five
    noise polynomials coincide and e*sd - ed*s vanishes *)
Definition flat (r : rnd) : Prop := ira r = repeat 0 21 /\ borrow r = 0 /\ (rndptr r < 21)%nat.
Lemma flat_sbrand r : flat r -> fst (sbrand r) = 0 /\ flat (snd (sbrand r)) /\ pool (snd (sbrand r)) = pool r.
Proof.
  intros [I [B R]]. unfold sbrand. rewrite I, B. destruct (S (rndptr r) <? RAND_NK)%nat eqn:E.
  - apply Nat.ltb_lt in E. cbn [fst snd]. split; [|split; [split; [reflexivity|split; [reflexivity|exact E]]|reflexivity]]. unfold at_. change (repeat 0 21) with (repeat 0 RAND_NK). apply (repeat_spec RAND_NK 0). apply nth_In. rewrite repeat_length. exact E.
  - replace (fold_left refill_turn (seq 0 RAND_NK) (repeat 0 21, (RAND_NK - RAND_NJ)%nat, 0)) with (repeat 0 21, 15%nat, 0) by (vm_compute; reflexivity). cbn [fst snd]. split; [reflexivity|]. split; [|reflexivity]. split; [reflexivity|]. split; [reflexivity|cbn; lia].
Qed.
Lemma flat_sbrands : forall n r, flat r -> fst (sbrands n r) = repeat 0 n /\ flat (snd (sbrands n r)).
Proof.
  induction n as [|n IH]; intros r F; [split; [reflexivity|exact F]|]. cbn [sbrands]. destruct (flat_sbrand r F) as [E [F1 _]]. destruct (sbrand r) as [x r1]. cbn [fst snd] in *. destruct (IH r1 F1) as [E2 F2]. destruct (sbrands n r1) as [xs r2]. cbn [fst snd repeat] in *. subst. split; [reflexivity|exact F2].
Qed.
Definition dull (r : rnd) : Prop := flat r /\ pool_ptr r = 0%nat /\ pool r = SHA2 SHA256 (repeat 0 128).
Lemma flat_fill bd r : flat r -> exists r', fill_pool bd r = Some r' /\ dull r'.
Proof.
  intros F. unfold fill_pool. destruct (flat_sbrands 128 r F) as [E F1]. destruct (sbrands 128 r) as [xs r1]. cbn [fst snd] in *. subst xs.
  assert (V : (s <- process_array sha256 bd (h_new sha256) (map (fun x => Z.land x 255) (repeat 0 128)) ;; w <- Sha2.hash sha256 bd s ;; Some (map (at_ (fst w)) (seq 0 32))) = Some (SHA2 SHA256 (repeat 0 128))) by (destruct bd; vm_compute; reflexivity).
  destruct (process_array sha256 bd (h_new sha256) (map (fun x => Z.land x 255) (repeat 0 128))) as [s|]; cbn [bind] in *; [|discriminate]. destruct (Sha2.hash sha256 bd s) as [w|]; cbn [bind] in *; [|discriminate]. assert (V' := f_equal (fun o => match o with Some l => l | None => [] end) V). cbv beta iota in V'. eexists. split; [reflexivity|]. split; [exact F1|]. split; [reflexivity|exact V'].
Qed.
Lemma dull_len r : dull r -> length (pool r) = 32%nat. Proof. intros [_ [_ ->]]. vm_compute. reflexivity. Qed.
Lemma dull_usable r : dull r -> usable r.
Proof. intros D. pose proof (dull_len r D). destruct D as [_ [P Q]]. split; [rewrite P; lia|]. split; [assumption|]. rewrite Q. apply (SHA2_bytes SHA256). Qed.
Lemma skip_cons l : forall p, (p < length l)%nat -> skipn p l = at_ l p :: skipn (S p) l.
Proof. induction l as [|a l IH]; intros [|p] H; cbn [length] in H; try lia; [reflexivity|]. cbn [skipn]. rewrite IH by lia. reflexivity. Qed.
Lemma dull_tail bd r : forall k, flat r -> length (pool r) = 32%nat -> (pool_ptr r + S k = 32)%nat -> exists r', getbytes bd (S k) r = Some (skipn (pool_ptr r) (pool r), r') /\ dull r'.
Proof.
  intros k. revert r. induction k as [|k IH]; intros r F L P.
  - cbn [getbytes]. unfold getbyte. replace (32 <=? pool_ptr r)%nat with false by (symmetry; apply Nat.leb_gt; lia). cbn [pool_ptr]. replace (32 <=? S (pool_ptr r))%nat with true by (symmetry; apply Nat.leb_le; lia).
    destruct (flat_fill bd (mkrnd (ira r) (rndptr r) (borrow r) (S (pool_ptr r)) (pool r))) as [r' [E D]]; [exact F|]. rewrite E. cbn [bind fst snd]. exists r'. split; [|exact D]. apply (f_equal Some). apply (f_equal (fun l => (l, r'))).
    rewrite (skip_cons (pool r) (pool_ptr r)) by lia. rewrite (skipn_all2 (pool r)) by lia. reflexivity.
  - cbn [getbytes]. unfold getbyte at 1. replace (32 <=? pool_ptr r)%nat with false by (symmetry; apply Nat.leb_gt; lia). cbn [pool_ptr]. replace (32 <=? S (pool_ptr r))%nat with false by (symmetry; apply Nat.leb_gt; lia). cbn [bind fst snd].
    destruct (IH (mkrnd (ira r) (rndptr r) (borrow r) (S (pool_ptr r)) (pool r)) F L) as [r' [E D]]; [cbn [pool_ptr]; lia|]. cbn [getbytes pool pool_ptr] in E. rewrite E. cbn [bind fst snd]. exists r'. split; [|exact D]. apply (f_equal Some). apply (f_equal (fun l => (l, r'))).
    symmetry. apply skip_cons. lia.
Qed.
Lemma dull_32 bd r : dull r -> exists r', getbytes bd 32 r = Some (SHA2 SHA256 (repeat 0 128), r') /\ dull r'.
Proof. intros D. pose proof (dull_len r D) as L. destruct D as [F [P Q]]. destruct (dull_tail bd r 31 F L ltac:(rewrite P; reflexivity)) as [r' [E D']]. exists r'. split; [|exact D']. rewrite E, P, Q. reflexivity. Qed.
Lemma dull_bytes bd : forall k r, dull r -> exists r', getbytes bd (32 * k) r = Some (concat (repeat (SHA2 SHA256 (repeat 0 128)) k), r') /\ dull r'.
Proof.
  induction k as [|k IH]; intros r D; [exists r; split; [reflexivity|exact D]|]. replace (32 * S k)%nat with (32 + 32 * k)%nat by lia. rewrite getbytes_app. destruct (dull_32 bd r D) as [r1 [E1 D1]]. rewrite E1. cbn [bind fst snd]. destruct (IH r1 D1) as [r2 [E2 D2]]. rewrite E2. cbn [bind fst snd repeat concat]. exists r2. split; [reflexivity|exact D2].
Qed.
Lemma app_inv_len {A} (a b c d : list A) : length a = length c -> a ++ b = c ++ d -> a = c /\ b = d.
Proof. revert c. induction a as [|x a IH]; intros [|y c] L E; try discriminate L; [split; [reflexivity|exact E]|]. cbn [app] in E. injection E as -> E. cbn [length] in L. destruct (IH c ltac:(lia) E) as [-> ->]. split; reflexivity. Qed.
Lemma draws_server bd (H P : list Z) (K : rnd -> Prop) : length H = 32%nat -> length P = NL -> (forall r, K r -> exists r', getbytes bd 32 r = Some (H, r') /\ K r') -> (forall r, K r -> exists r', getbytes bd NL r = Some (P, r') /\ K r') ->
  forall g seed eb sb g', K g -> getbytes bd (32 + (NL + NL)) g = Some (seed ++ eb ++ sb, g') -> length seed = 32%nat -> length eb = NL -> eb = P /\ sb = P.
Proof.
  intros LH LP D1 D2 g seed eb sb g' KG E L1 L2. rewrite getbytes_app in E. destruct (D1 g KG) as [r1 [E1 K1]]. rewrite E1 in E. cbn [bind fst snd] in E. rewrite getbytes_app in E. destruct (D2 r1 K1) as [r2 [E2 K2]]. rewrite E2 in E. cbn [bind fst snd] in E. destruct (D2 r2 K2) as [r3 [E3 K3]]. rewrite E3 in E. cbn [bind fst snd] in E.
  injection E as E _. apply app_inv_len in E; [|congruence]. destruct E as [_ E]. apply app_inv_len in E; [|congruence]. destruct E as [<- <-]. split; reflexivity.
Qed.
Lemma draws_client bd (H P : list Z) (K : rnd -> Prop) : length H = 32%nat -> length P = NL -> (forall r, K r -> exists r', getbytes bd 32 r = Some (H, r') /\ K r') -> (forall r, K r -> exists r', getbytes bd NL r = Some (P, r') /\ K r') ->
  forall h a b c d h', K h -> getbytes bd (NL + (NL + (32 + NL))) h = Some (a ++ b ++ c ++ d, h') -> length a = NL -> length b = NL -> length c = 32%nat -> a = P /\ b = P /\ d = P.
Proof.
  intros LH LP D1 D2 h a b c d h' KG E L1 L2 L3. rewrite getbytes_app in E. destruct (D2 h KG) as [r1 [E1 K1]]. rewrite E1 in E. cbn [bind fst snd] in E. rewrite getbytes_app in E. destruct (D2 r1 K1) as [r2 [E2 K2]]. rewrite E2 in E. cbn [bind fst snd] in E. rewrite getbytes_app in E. destruct (D1 r2 K2) as [r3 [E3 K3]]. rewrite E3 in E. cbn [bind fst snd] in E. destruct (D2 r3 K3) as [r4 [E4 K4]]. rewrite E4 in E. cbn [bind fst snd] in E.
  injection E as E _. apply app_inv_len in E; [|congruence]. destruct E as [<- E]. apply app_inv_len in E; [|congruence]. destruct E as [<- E]. apply app_inv_len in E; [|congruence]. destruct E as [_ <-]. repeat split; reflexivity.
Qed.
Lemma one_value bd (H P : list Z) (K : rnd -> Prop) g : length H = 32%nat -> length P = NL -> (forall r, K r -> exists r', getbytes bd 32 r = Some (H, r') /\ K r') -> (forall r, K r -> exists r', getbytes bd NL r = Some (P, r') /\ K r') -> K g -> usable g ->
  exists sb ss g' uc key h', server_1 bd g SB_LEN POLY_LEN = Some (sb, ss, g') /\ client bd g sb UC_LEN 32 = Some (uc, key, h') /\ server_2 bd ss uc 32 = Some key.
Proof.
  intros LH LP D1 D2 KG U. destruct (server_1_ok bd g SB_LEN POLY_LEN U (le_n _) (le_n _)) as [seed [eb [sbs [g1 [b [sv [G1 [G2 [G3 [G4 [G5 [G6 [G7 [G8 [G9 [G10 G11]]]]]]]]]]]]]]]].
  destruct (pack_len b G8) as [PB [PL PU]]. apply Forall_app in G2. destruct G2 as [BSeed _].
  destruct (C54_client_total bd g (seed ++ nhs_pack b) UC_LEN 32 U) as [uc [key [h1 [EC _]]]]; [apply Forall_app; split; assumption|rewrite app_length, G3, PL; apply le_n|apply le_n|apply le_n|].
  exists (seed ++ nhs_pack b), (nhs_pack sv), g1, uc, key, h1. split; [exact G7|]. split; [exact EC|].
  destruct (agreement bd bd bd g g SB_LEN POLY_LEN UC_LEN 32 32 _ _ _ _ _ _ U U (le_n _) G7 EC) as [seed' [eb' [sb' [sdb [edb [kb [e2b [A1 [A2 [A3 [A4 [A5 [A6 [A7 [A8 [A9 [A10 A11]]]]]]]]]]]]]]]]].
  apply A11. destruct (draws_server bd H P K LH LP D1 D2 g _ _ _ _ KG A1 A3 A4) as [-> ->]. destruct (draws_client bd H P K LH LP D1 D2 g _ _ _ _ _ KG A2 A6 A7 A8) as [-> [-> ->]].
  intros i Hi. cbv zeta beta. assert (NR : forall j, -16 <= noise P j <= 16). { intros j. unfold noise. pose proof (ones8_range (at_ P (4 * j))). pose proof (ones8_range (at_ P (4 * j + 1))). pose proof (ones8_range (at_ P (4 * j + 2))). pose proof (ones8_range (at_ P (4 * j + 3))). lia. }
  rewrite !Z.sub_diag. pose proof (NR i). pose proof (NR (i + 256)%nat). pose proof (NR (i + 512)%nat). pose proof (NR (i + 768)%nat). lia.
Qed.
Lemma len_blocks (H : list Z) k : length H = 32%nat -> length (concat (repeat H k)) = (32 * k)%nat.
Proof. intros L. induction k as [|k IH]; cbn [repeat concat]; [reflexivity|rewrite app_length, IH; lia]. Qed.
Transparent NL.
Lemma nl_blocks : NL = (32 * 128)%nat. Proof. reflexivity. Qed.
Opaque NL.
Lemma dull_nl bd r : dull r -> exists r', getbytes bd NL r = Some (concat (repeat (SHA2 SHA256 (repeat 0 128)) 128), r') /\ dull r'.
Proof. rewrite nl_blocks. apply dull_bytes. Qed.
Example C54_run bd : exists g sb ss g' uc key h', rnd_seed bd rnd_new 0 [] = Some g /\ usable g /\ server_1 bd g SB_LEN POLY_LEN = Some (sb, ss, g') /\ client bd g sb UC_LEN 32 = Some (uc, key, h') /\ server_2 bd ss uc 32 = Some key.
Proof.
  destruct (flat_fill bd (mkrnd (repeat 0 RAND_NK) 0 0 0 (repeat 0 32))) as [g [EG D]]; [split; [reflexivity|]; split; [reflexivity|cbn; lia]|]. exists g. pose proof (dull_usable g D) as U.
  assert (LH : length (SHA2 SHA256 (repeat 0 128)) = 32%nat) by (rewrite <- (proj2 (proj2 D)); apply dull_len; exact D).
  destruct (one_value bd (SHA2 SHA256 (repeat 0 128)) (concat (repeat (SHA2 SHA256 (repeat 0 128)) 128)) dull g LH) as [sb [ss [g' [uc [key [h' [R1 [R2 R3]]]]]]]]; [rewrite nl_blocks; apply len_blocks; exact LH|apply dull_32|apply dull_nl|exact D|exact U|].
  exists sb, ss, g', uc, key, h'. split; [exact EG|]. split; [exact U|]. split; [exact R1|]. split; [exact R2|exact R3].
Qed.

Print Assumptions C42_redc.
Print Assumptions C42_modmul.
Print Assumptions C42_nres.
Print Assumptions C42_pack_unpack.
Print Assumptions C42_unpack_range.
Print Assumptions C42_compress.
Print Assumptions C42_decode_noise.
Print Assumptions C42_decode_bound_tight.
Print Assumptions C43_ntt_values.
Print Assumptions C43_roots.
Print Assumptions C43_intt_inverts.
Print Assumptions C43_product.
Print Assumptions C54_server_1.
Print Assumptions C54_short_buffers.
Print Assumptions C54_client_total.
Print Assumptions C54_server_2_total.
Print Assumptions C54_agreement.
