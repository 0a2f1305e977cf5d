(** C46: BLS signatures (basic, message augmentation, proof of possession), for both placements of the signatures, over any two groups
    of order n that satisfy [grp_ok] and any pairing that satisfies [pairs_ok]. *)
From Verif Require Import Base.Word Base.Arr Model.Big Model.Roms Model.Ecp Model.HashToCurve Model.Bls Model.BlsScheme Spec.Bytes Spec.BigSpec Spec.BlsSchemeSpec
  Proof.BigMod Proof.NumTheory Proof.FpBase Proof.PrimeBlsN Proof.BlsRoms Proof.BlsInst Proof.BlsSchemeProof Spec.EcpSpec.
From Coq Require Import Lia Znumtheory.

(** The group order of BLS12-381 *)
Definition n : Z := 0x73eda753299d7d483339d80809a1d80553bda402fffe5bfeffffffff00000001.
(** a usable secret key: 32 bytes, below n *)
Definition secret (sk : list Z) : Prop := bytes sk /\ length sk = 32%nat /\ os2ip sk < n.

Section C46.
Variable r : rom.
Hypothesis HR : In r bls_roms.
Variable v : variant.
Variables S K : grp.
Variables sS sK : nat.
Variable repS : obj S -> Z -> Prop.
Variable repK : obj K -> Z -> Prop.
Hypothesis HS : grp_ok (r_cfg r) n sS S repS.
Hypothesis HK : grp_ok (r_cfg r) n sK K repK.
Variable pairs : list (obj K * obj S) -> option bool.
Hypothesis HP : pairs_ok n repK repS pairs.

(** *** keys and single signatures *)
(** the public key of sk is the sk-th multiple of the generator, and signing gives the sk-th multiple of the hash; neither panics *)
Theorem C46_public_key sk : secret sk -> exists pk, secret_key_to_public_key r K sk = Some (Ok pk) /\ length pk = sK /\ bytes pk /\ denotes K repK pk (os2ip sk).
Proof. exact (pk_ok r HR K sK repK HK sk). Qed.
Theorem C46_sign sk msg dst h : secret sk -> hashes S repS msg dst h -> exists sg, core_sign r S sk msg dst = Some (Ok sg) /\ length sg = sS /\ bytes sg /\ denotes S repS sg (h * os2ip sk).
Proof. exact (sign_ok r HR S sS repS HS sk msg dst h). Qed.
(** wrong secret keys are reported, never used *)
Theorem C46_bad_secret_key sk msg dst : bytes sk ->
  (length sk <> 32%nat -> core_sign r S sk msg dst = Some (Err InvalidSecretKeySize) /\ secret_key_to_public_key r K sk = Some (Err InvalidSecretKeySize) /\ pop_prove r v S K sk = Some (Err InvalidSecretKeySize)) /\
  (length sk = 32%nat -> n <= os2ip sk -> core_sign r S sk msg dst = Some (Err InvalidSecretKeyRange) /\ secret_key_to_public_key r K sk = Some (Err InvalidSecretKeyRange) /\ pop_prove r v S K sk = Some (Err InvalidSecretKeyRange)).
Proof.
  intros B. unfold core_sign, secret_key_to_public_key, pop_prove. split.
  - intros L. assert (E : secret_key_from_bytes r sk = Some (Err InvalidSecretKeySize)) by (unfold secret_key_from_bytes; destruct (Nat.eqb_spec (length sk) SECRET_KEY_BYTES); [contradiction|reflexivity]). rewrite E. auto.
  - intros L G. destruct (sk_from r HR sk B L) as [w [_ [_ E]]]. change bls381_n with n in E. destruct (Z.ltb_spec (os2ip sk) n); [lia|]. rewrite E. auto.
Qed.
(** verification decides exactly: both byte strings denote group elements, and the signature is the hash raised to the exponent of the public key *)
Theorem C46_verify_exact pk msg sg dst h : bytes pk -> bytes sg -> hashes S repS msg dst h ->
  exists ans, core_verify v S K pairs pk msg sg dst = Some ans /\ (ans = true <-> exists l, denotes K repK pk l /\ denotes S repS sg (h * l)).
Proof. exact (verify_iff r v S K sS sK repS repK HS HK pairs HP pk msg sg dst h). Qed.
(** what was signed verifies *)
Theorem C46_sign_verify sk msg dst h : secret sk -> hashes S repS msg dst h ->
  exists pk sg, secret_key_to_public_key r K sk = Some (Ok pk) /\ core_sign r S sk msg dst = Some (Ok sg) /\ core_verify v S K pairs pk msg sg dst = Some true.
Proof.
  intros Hs Hh. destruct (C46_public_key sk Hs) as [pk [P1 [_ [P3 P4]]]]. destruct (C46_sign sk msg dst h Hs Hh) as [sg [S1 [_ [S3 S4]]]]. exists pk, sg. split; [exact P1|]. split; [exact S1|].
  destruct (C46_verify_exact pk msg sg dst h P3 S3 Hh) as [ans [A1 A2]]. rewrite A1. f_equal. apply A2. exists (os2ip sk). auto.
Qed.
(** ... and verifies for no message with another hash *)
Theorem C46_other_message sk pk sg msg dst h msg' dst' h' : secret sk -> os2ip sk <> 0 -> hashes S repS msg dst h -> hashes S repS msg' dst' h' -> ~ cg n h h' ->
  secret_key_to_public_key r K sk = Some (Ok pk) -> core_sign r S sk msg dst = Some (Ok sg) -> core_verify v S K pairs pk msg' sg dst' = Some false.
Proof.
  intros Hs NZ Hh Hh' ND EP ES. destruct (C46_public_key sk Hs) as [pk' [P1 [_ [P3 P4]]]]. rewrite EP in P1. injection P1 as <-. destruct (C46_sign sk msg dst h Hs Hh) as [sg' [S1 [_ [S3 S4]]]]. rewrite ES in S1. injection S1 as <-.
  destruct (C46_verify_exact pk msg' sg dst' h' P3 S3 Hh') as [ans [A1 A2]]. rewrite A1. f_equal. destruct ans; [|reflexivity]. exfalso. apply ND. destruct (proj1 A2 eq_refl) as [l [L1 L2]].
  assert (C1 : cg n (os2ip sk) l) by exact (denotes_cg r K repK sK pk _ _ HK P4 L1). assert (C2 : cg n (h * os2ip sk) (h' * l)) by exact (denotes_cg r S repS sS sg _ _ HS S4 L2).
  assert (N0 : 0 < n) by reflexivity. unfold cg in *. apply (mod_cancel h h' (os2ip sk) n N0).
  - apply prime_coprime; [exact prime_bls381_order|]. destruct Hs as [B [_ L]]. rewrite Z.mod_small; [exact NZ|]. split; [apply os2ip_range; exact B|exact L].
  - rewrite C2, (Z.mul_mod h' (os2ip sk)), C1, <- Z.mul_mod by lia. reflexivity.
Qed.
(** signatures are unique: two byte strings accepted for the same key and message denote the same group element *)
Theorem C46_unique pk msg dst h sg1 sg2 : bytes pk -> bytes sg1 -> bytes sg2 -> hashes S repS msg dst h ->
  core_verify v S K pairs pk msg sg1 dst = Some true -> core_verify v S K pairs pk msg sg2 dst = Some true -> exists k, denotes S repS sg1 k /\ denotes S repS sg2 k.
Proof.
  intros B B1 B2 Hh E1 E2. destruct (C46_verify_exact pk msg sg1 dst h B B1 Hh) as [a1 [A1 A2]]. destruct (C46_verify_exact pk msg sg2 dst h B B2 Hh) as [a2 [D1 D2]]. rewrite E1 in A1. injection A1 as <-. rewrite E2 in D1. injection D1 as <-.
  destruct (proj1 A2 eq_refl) as [l [L1 L2]]. destruct (proj1 D2 eq_refl) as [m [M1 M2]]. exists (h * l). split; [exact L2|]. apply (denotes_eq r S repS sS sg2 (h * m) _ HS M2).
  assert (C1 : cg n l m) by exact (denotes_cg r K repK sK pk _ _ HK L1 M1). assert (N0 : n <> 0) by discriminate. unfold cg in *. change bls381_n with n in *. rewrite (Z.mul_mod h m), <- C1, <- Z.mul_mod by exact N0. reflexivity.
Qed.
(** the identity is accepted as a public key: with it the identity signature verifies for every message *)
Theorem C46_identity_key_refuted pk sg msg dst h : bytes pk -> bytes sg -> hashes S repS msg dst h -> denotes K repK pk 0 -> denotes S repS sg 0 -> core_verify v S K pairs pk msg sg dst = Some true.
Proof. intros B1 B2 Hh D1 D2. destruct (C46_verify_exact pk msg sg dst h B1 B2 Hh) as [ans [A1 A2]]. rewrite A1. f_equal. apply A2. exists 0. split; [exact D1|]. rewrite Z.mul_0_r. exact D2. Qed.

(** *** aggregation *)
Theorem C46_aggregate pts ks : pts <> [] -> Forall2 (denotes S repS) pts ks -> exists b, aggregate S pts = Some (Ok b) /\ length b = sS /\ bytes b /\ denotes S repS b (fold_right Z.add 0 ks).
Proof. exact (aggregate_ok r S sS repS HS pts ks). Qed.
Theorem C46_aggregate_empty : aggregate S [] = Some (Err AggregateEmptyPoints).
Proof. reflexivity. Qed.
(** the first string that does not decode decides the error *)
Theorem C46_aggregate_bad pts ks b e rest : Forall2 (denotes S repS) pts ks -> g_deser S b = Some (Err e) -> aggregate S (pts ++ b :: rest) = Some (Err e).
Proof. exact (aggregate_bad r S sS repS HS pts ks b e rest). Qed.
(** aggregate verification decides exactly *)
Theorem C46_aggregate_verify_exact pks msgs sg dst hs : Forall bytes pks -> bytes sg -> Forall2 (fun m h => hashes S repS m dst h) msgs hs ->
  exists ans, core_aggregate_verify v S K pairs pks msgs sg dst = Some ans /\
    (ans = true <-> pks <> [] /\ length pks = length msgs /\ exists ls, Forall2 (denotes K repK) pks ls /\ denotes S repS sg (fold_right Z.add 0 (map (fun q => fst q * snd q) (combine ls hs)))).
Proof. exact (averify_iff r v S K sS sK repS repK HS HK pairs HP pks msgs sg dst hs). Qed.
(** empty and mismatched lists are refused, whatever the messages hash to *)
Theorem C46_aggregate_verify_lists pks msgs sg dst : bytes sg -> pks = [] \/ length pks <> length msgs -> core_aggregate_verify v S K pairs pks msgs sg dst = Some false.
Proof.
  intros B H. unfold core_aggregate_verify. assert (BL : (length pks =? 0)%nat || negb (length pks =? length msgs)%nat = true) by (destruct H as [->|H]; [reflexivity|apply orb_true_intro; right; apply negb_true_iff, Nat.eqb_neq; exact H]).
  rewrite BL. destruct v; [reflexivity|]. destruct (deser_ok _ _ _ _ _ HS sg B) as [[e E]|[P [ok [E _]]]]; rewrite E; reflexivity.
Qed.
(** a signing party: secret key, message, and the exponent of the message's hash *)
Definition party (dst : list Z) (q : list Z * list Z * Z) : Prop := secret (fst (fst q)) /\ hashes S repS (snd (fst q)) dst (snd q).
(** what any number of parties sign, aggregated, verifies *)
Theorem C46_aggregate_of_signatures_verifies dst (l : list (list Z * list Z * Z)) : l <> [] -> Forall (party dst) l ->
  exists pks sgs agg,
    Forall2 (fun q pk => secret_key_to_public_key r K (fst (fst q)) = Some (Ok pk)) l pks /\
    Forall2 (fun q sg => core_sign r S (fst (fst q)) (snd (fst q)) dst = Some (Ok sg)) l sgs /\
    aggregate S sgs = Some (Ok agg) /\ core_aggregate_verify v S K pairs pks (map (fun q => snd (fst q)) l) agg dst = Some true.
Proof.
  intros NE HF.
  assert (G : exists pks sgs, Forall2 (fun q pk => secret_key_to_public_key r K (fst (fst q)) = Some (Ok pk)) l pks /\ Forall2 (fun q sg => core_sign r S (fst (fst q)) (snd (fst q)) dst = Some (Ok sg)) l sgs /\
     Forall bytes pks /\ Forall2 (denotes K repK) pks (map (fun q => os2ip (fst (fst q))) l) /\ Forall2 (denotes S repS) sgs (map (fun q => os2ip (fst (fst q)) * snd q) l) /\ Forall2 (fun m h => hashes S repS m dst h) (map (fun q => snd (fst q)) l) (map snd l)).
  { clear NE. induction HF as [|[[sk m] h] l [H1 H2] HF IH]; [exists [], []; repeat split; constructor|]. cbn [fst snd] in *. destruct IH as [pks [sgs [I1 [I2 [I3 [I4 [I5 I6]]]]]]].
    destruct (C46_public_key sk H1) as [pk [P1 [P2 [P3 P4]]]]. destruct (C46_sign sk m dst h H1 H2) as [sg [S1 [S2 [S3 S4]]]]. rewrite Z.mul_comm in S4. exists (pk :: pks), (sg :: sgs). cbn [map fst snd]. repeat split; constructor; cbn [fst snd]; assumption. }
  destruct G as [pks [sgs [G1 [G2 [G3 [G4 [G5 G6]]]]]]]. exists pks, sgs.
  destruct (C46_aggregate sgs _ ltac:(intros ->; inversion G2; subst; contradiction) G5) as [agg [A1 [A2 [A3 A4]]]]. exists agg. split; [exact G1|]. split; [exact G2|]. split; [exact A1|].
  destruct (C46_aggregate_verify_exact pks _ agg dst _ G3 A3 G6) as [ans [V1 V2]]. rewrite V1. f_equal. apply V2.
  split; [intros ->; inversion G1; subst; contradiction|]. split; [rewrite map_length; clear - G1; induction G1; cbn [length]; congruence|]. exists (map (fun q => os2ip (fst (fst q))) l). split; [exact G4|].
  replace (map (fun q => fst q * snd q) (combine (map (fun q => os2ip (fst (fst q))) l) (map snd l))) with (map (fun q : list Z * list Z * Z => os2ip (fst (fst q)) * snd q) l); [exact A4|].
  clear. induction l as [|q l IH]; [reflexivity|]. cbn [map combine fst snd]. rewrite IH. reflexivity.
Qed.

(** *** the three schemes *)
Lemma list_eqb_eq : forall a b, list_eqb a b = true <-> a = b.
Proof.
  induction a as [|x a IH]; intros [|y b]; cbn [list_eqb]; try (split; [discriminate|discriminate]); [split; reflexivity|]. rewrite andb_true_iff, Z.eqb_eq, IH. split; [intros [-> ->]; reflexivity|intros [= -> ->]; auto].
Qed.
Lemma repeated_iff msgs : repeated msgs = true <-> ~ NoDup msgs.
Proof.
  unfold repeated. rewrite existsb_exists. split.
  - intros [i [Hi H]]. apply existsb_exists in H. destruct H as [j [Hj H]]. apply andb_true_iff in H. destruct H as [H1 H2]. apply negb_true_iff, Nat.eqb_neq in H1. apply list_eqb_eq in H2. apply in_seq in Hi, Hj. intros ND. apply H1. exact (proj1 (NoDup_nth msgs []) ND i j ltac:(lia) ltac:(lia) H2).
  - intros ND. destruct (existsb (fun i => existsb (fun j => negb (i =? j)%nat && list_eqb (nth i msgs []) (nth j msgs [])) (seq 0 (length msgs))) (seq 0 (length msgs))) eqn:E; [apply existsb_exists in E; exact E|].
    exfalso. apply ND. apply (NoDup_nth msgs []). intros i j Hi Hj Q. destruct (Nat.eq_dec i j) as [D|D]; [exact D|]. exfalso. assert (T : existsb (fun i => existsb (fun j => negb (i =? j)%nat && list_eqb (nth i msgs []) (nth j msgs [])) (seq 0 (length msgs))) (seq 0 (length msgs)) = true); [|congruence].
    apply existsb_exists. exists i. split; [apply in_seq; lia|]. apply existsb_exists. exists j. split; [apply in_seq; lia|]. apply andb_true_iff. split; [apply negb_true_iff, Nat.eqb_neq; exact D|apply list_eqb_eq; exact Q].
Qed.
(** basic: the core functions under the scheme's tag, except that aggregate verification refuses repeated messages *)
Theorem C46_basic_aggregate_verify pks msgs sg :
  (~ NoDup msgs -> basic_aggregate_verify v S K pairs pks msgs sg = Some false) /\
  (NoDup msgs -> basic_aggregate_verify v S K pairs pks msgs sg = core_aggregate_verify v S K pairs pks msgs sg (BASIC_DST v)).
Proof.
  unfold basic_aggregate_verify. split; intros H.
  - apply repeated_iff in H. rewrite H. reflexivity.
  - destruct (repeated msgs) eqn:E; [|reflexivity]. apply repeated_iff in E. contradiction.
Qed.
Theorem C46_basic_sign_verify sk msg h : secret sk -> hashes S repS msg (BASIC_DST v) h ->
  exists pk sg, secret_key_to_public_key r K sk = Some (Ok pk) /\ basic_sign r v S sk msg = Some (Ok sg) /\ basic_verify v S K pairs pk msg sg = Some true.
Proof. exact (C46_sign_verify sk msg (BASIC_DST v) h). Qed.
(** message augmentation: signatures are over public key ++ message *)
Theorem C46_aug_sign_verify sk pk msg h : secret sk -> secret_key_to_public_key r K sk = Some (Ok pk) -> hashes S repS (pk ++ msg) (AUG_DST v) h ->
  exists sg, aug_sign r v S sk msg pk = Some (Ok sg) /\ aug_verify v S K pairs pk msg sg = Some true.
Proof.
  intros Hs EP Hh. destruct (C46_sign_verify sk (pk ++ msg) (AUG_DST v) h Hs Hh) as [pk' [sg [P [Q V]]]]. rewrite EP in P. injection P as <-. exists sg. auto.
Qed.
Lemma augment_ok : forall pks msgs, (length msgs <= length pks)%nat -> augment pks msgs = Some (map (fun q => fst q ++ snd q) (combine pks msgs)).
Proof.
  induction pks as [|pk pks IH]; intros [|m msgs] L; cbn [augment combine map fst snd length] in *; try reflexivity; [lia|]. rewrite IH by lia. reflexivity.
Qed.
Lemma augment_bad : forall pks msgs, (length pks < length msgs)%nat -> augment pks msgs = None.
Proof.
  induction pks as [|pk pks IH]; intros [|m msgs] L; cbn [augment length] in *; try lia; [reflexivity|]. rewrite IH by lia. reflexivity.
Qed.
Theorem C46_aug_aggregate_verify pks msgs sg : bytes sg -> (length msgs <= length pks)%nat ->
  aug_aggregate_verify v S K pairs pks msgs sg = core_aggregate_verify v S K pairs pks (map (fun q => fst q ++ snd q) (combine pks msgs)) sg (AUG_DST v).
Proof. intros B L. unfold aug_aggregate_verify. rewrite augment_ok by exact L. reflexivity. Qed.
(** more messages than public keys: a panic, where the other schemes answer false *)
Theorem C46_aug_aggregate_verify_lists_refuted pks msgs sg : (length pks < length msgs)%nat -> aug_aggregate_verify v S K pairs pks msgs sg = None.
Proof. intros L. unfold aug_aggregate_verify. rewrite augment_bad by exact L. reflexivity. Qed.

(** proof of possession *)
Theorem C46_pop_prove_verify sk pk h : secret sk -> secret_key_to_public_key r K sk = Some (Ok pk) -> hashes S repS pk (POP_PROOF_DST v) h ->
  exists proof, pop_prove r v S K sk = Some (Ok proof) /\ pop_verify v S K pairs pk proof = Some true.
Proof.
  intros Hs EP Hh. destruct (C46_sign_verify sk pk (POP_PROOF_DST v) h Hs Hh) as [pk' [sg [P [Q V]]]]. rewrite EP in P. injection P as <-. exists sg. split.
  - unfold pop_prove, secret_key_to_public_key, core_sign in *. destruct (secret_key_from_bytes r sk) as [[s|e]|]; cbn [rbind] in *; [|discriminate|discriminate].
    destruct (g_gen K) as [g|]; [|discriminate]. cbn [bind] in *. destruct (g_mul K g s) as [P|]; [|discriminate]. cbn [bind] in *. destruct (g_ser K P) as [b|]; [|discriminate]. cbn [bind] in *. injection EP as ->. exact Q.
  - unfold pop_verify, core_verify in *. destruct (g_deser K pk) as [a|]; cbn [bind] in *; [|discriminate]. destruct (g_deser S sg) as [b|]; cbn [bind] in *; [|discriminate]. exact V.
Qed.
(** pop_verify is core verification of the public key's own bytes *)
Theorem C46_pop_verify_exact pk proof h : bytes pk -> bytes proof -> hashes S repS pk (POP_PROOF_DST v) h ->
  exists ans, pop_verify v S K pairs pk proof = Some ans /\ (ans = true <-> exists l, denotes K repK pk l /\ denotes S repS proof (h * l)).
Proof.
  intros B1 B2 Hh. destruct (C46_verify_exact pk pk proof (POP_PROOF_DST v) h B1 B2 Hh) as [ans [A1 A2]]. exists ans. split; [|exact A2].
  unfold pop_verify, core_verify in *. destruct (g_deser K pk) as [a|]; cbn [bind] in *; [|discriminate]. destruct (g_deser S proof) as [b|]; cbn [bind] in *; [|discriminate]. exact A1.
Qed.
(** fast aggregate verification: no keys, or a signature that does not decode, is refused *)
Theorem C46_fast_aggregate_empty msg sg : fast_aggregate_verify v S K pairs [] msg sg = Some false.
Proof. reflexivity. Qed.
(** ... but the first public key is read with frombytes, not deserialize: where frombytes panics on strings of the length of a
    serialised key, every call with a serialised first key and a decodable signature panics *)
Theorem C46_fast_aggregate_refuted pk0 pks msg sg h P : (forall b, length b = sK -> g_from K b = None) -> length pk0 = sK -> hashes S repS msg (POP_DST v) h -> g_deser S sg = Some (Ok P) ->
  fast_aggregate_verify v S K pairs (pk0 :: pks) msg sg = None.
Proof.
  intros HF L [Q [Q1 Q2]] E. unfold fast_aggregate_verify. rewrite E. cbn [bind]. rewrite Q1. cbn [bind]. destruct (gen_ok _ _ _ _ _ HK) as [g [G1 G2]]. destruct (neg_ok _ _ _ _ _ HK g 1 G2) as [ng [N1 N2]].
  rewrite G1. cbn [bind]. rewrite N1. cbn [bind]. rewrite (HF pk0 L). reflexivity.
Qed.
(** Given a first key that frombytes reads as a group element, and other keys that denote group elements: the answer is exact. *)
Theorem C46_fast_aggregate_exact pk0 P0 l0 pks ls msg sg P k h : g_from K pk0 = Some P0 -> repK P0 l0 -> Forall2 (denotes K repK) pks ls -> g_deser S sg = Some (Ok P) -> repS P k -> hashes S repS msg (POP_DST v) h ->
  exists ans, fast_aggregate_verify v S K pairs (pk0 :: pks) msg sg = Some ans /\ (ans = true <-> cg n k (h * (l0 + fold_right Z.add 0 ls))).
Proof.
  intros E0 R0 HF ES RS [Q [Q1 Q2]]. unfold fast_aggregate_verify. rewrite ES. cbn [bind]. rewrite Q1. cbn [bind].
  assert (G : forall pks ls acc a, repK acc a -> Forall2 (denotes K repK) pks ls -> exists R, fast_loop K acc pks = Some (Some R) /\ repK R (a + fold_right Z.add 0 ls)).
  { clear - HK. induction pks as [|b pks IH]; intros ls acc a HA HF; inversion HF as [|? k ? ls' [P [E R]] F]; subst; cbn [fast_loop fold_right].
    - exists acc. rewrite Z.add_0_r. auto.
    - rewrite E. cbn [bind]. destruct (add_ok _ _ _ _ _ HK acc P a k HA R) as [T [T1 T2]]. rewrite T1. cbn [bind]. rewrite Z.add_assoc. exact (IH ls' T (a + k) T2 F). }
  destruct (G pks ls P0 l0 R0 HF) as [R [R1 R2]].
  destruct (check_pairs r S K sK repS repK HK pairs HP P k [(R, Q)] [(l0 + fold_right Z.add 0 ls, h)] RS) as [g [ng [ans [E1 [E2 [E3 E4]]]]]]. { constructor; [cbn [fst snd]; auto|constructor]. }
  rewrite E1. cbn [bind]. rewrite E2. cbn [bind]. rewrite E0. cbn [bind]. rewrite R1. cbn [bind]. exists ans. split; [exact E3|]. rewrite E4. cbn [fold_right fst snd]. rewrite Z.add_0_r, Z.mul_comm. reflexivity.
Qed.
End C46.
Print Assumptions C46_public_key.
Print Assumptions C46_sign.
Print Assumptions C46_bad_secret_key.
Print Assumptions C46_verify_exact.
Print Assumptions C46_sign_verify.
Print Assumptions C46_other_message.
Print Assumptions C46_unique.
Print Assumptions C46_identity_key_refuted.
Print Assumptions C46_aggregate.
Print Assumptions C46_aggregate_empty.
Print Assumptions C46_aggregate_bad.
Print Assumptions C46_aggregate_verify_exact.
Print Assumptions C46_aggregate_verify_lists.
Print Assumptions C46_aggregate_of_signatures_verifies.
Print Assumptions C46_basic_aggregate_verify.
Print Assumptions C46_basic_sign_verify.
Print Assumptions C46_aug_sign_verify.
Print Assumptions C46_aug_aggregate_verify.
Print Assumptions C46_aug_aggregate_verify_lists_refuted.
Print Assumptions C46_pop_prove_verify.
Print Assumptions C46_pop_verify_exact.
Print Assumptions C46_fast_aggregate_empty.
Print Assumptions C46_fast_aggregate_refuted.
Print Assumptions C46_fast_aggregate_exact.

(** The hypothesis on frombytes holds of the real G1 with its 48-byte compressed keys. *)
Theorem C46_fast_aggregate_g1_frombytes r b : In r bls_roms -> length b = 48%nat -> ecp_frombytes r b = None.
Proof.
  intros HR L. unfold ecp_frombytes. cbv zeta. fold (mbytes r). rewrite (bls_N r HR). assert (G : forall n i, (length b < i + n)%nat -> (0 < n)%nat -> get_range b i n = None).
  { induction n0 as [|m IH]; intros i H P; [lia|]. cbn [get_range]. destruct (nth_error b i) eqn:E; [|reflexivity]. cbn [bind]. assert (i < length b)%nat by (apply nth_error_Some; congruence). rewrite IH by lia. reflexivity. }
  rewrite G by lia. reflexivity.
Qed.
Print Assumptions C46_fast_aggregate_g1_frombytes.

(** *** The hypotheses can be met: integers modulo n as both groups *)
Definition toy (r : rom) : grp := {| obj := Z; g_gen := Some 1; g_mul := fun P s => Some ((P * bval (r_cfg r) s) mod n); g_add := fun P Q => Some ((P + Q) mod n); g_neg := fun P => Some ((- P) mod n);
  g_ser := fun P => Some (i2osp P 32); g_deser := fun b => Some (if (length b =? 32)%nat then Ok (os2ip b) else Err InvalidPoint); g_check := fun P => Some (P <? n);
  g_hash := fun m d => Some (os2ip (m ++ d) mod n); g_from := fun b => Some (os2ip b mod n) |}.
Definition toy_rep (r : rom) (P k : Z) : Prop := P = k mod n.
Lemma toy_ok r : grp_ok (r_cfg r) n 32 (toy r) (toy_rep r).
Proof.
  assert (N0 : n <> 0) by discriminate. split; unfold toy, toy_rep, cg; cbn [obj g_gen g_mul g_add g_neg g_ser g_deser g_check g_hash g_from].
  - intros P k k' -> ->. reflexivity.
  - intros P k k' -> E. exact E.
  - exists 1. split; reflexivity.
  - intros P k s -> _ _. eexists. split; [reflexivity|]. apply Z.mul_mod_idemp_l. exact N0.
  - intros P Q k l -> ->. eexists. split; [reflexivity|]. rewrite <- Z.add_mod by exact N0. reflexivity.
  - intros P k ->. eexists. split; [reflexivity|]. rewrite <- !(Z.sub_0_l). rewrite Zminus_mod_idemp_r. reflexivity.
  - intros P k ->. pose proof (Z.mod_pos_bound k n ltac:(reflexivity)) as B. exists (i2osp (k mod n) 32), (k mod n). rewrite i2osp_length. split; [reflexivity|]. split; [reflexivity|]. split; [apply i2osp_bytes|]. split; [|reflexivity].
    cbn [Nat.eqb]. rewrite os2ip_i2osp, Z.mod_small; [reflexivity|]. split; [apply B|]. eapply Z.lt_trans; [apply B|reflexivity].
  - intros b Hb. destruct (length b =? 32)%nat; [right|left; eexists; reflexivity]. exists (os2ip b), (os2ip b <? n). split; [reflexivity|]. split; [reflexivity|]. rewrite Z.ltb_lt. split.
    + intros H. exists (os2ip b). symmetry. apply Z.mod_small. split; [apply os2ip_range; exact Hb|exact H].
    + intros [k ->]. apply Z.mod_pos_bound. reflexivity.
Qed.
Definition toy_pairs (r : rom) (l : list (obj (toy r) * obj (toy r))) : option bool := Some (fold_right (fun e s => (fst e : Z) * snd e + s) 0 l mod n =? 0).
Lemma toy_pairs_ok r : @pairs_ok (toy r) (toy r) n (toy_rep r) (toy_rep r) (toy_pairs r).
Proof.
  intros l es H. unfold toy_pairs. do 2 f_equal. induction H as [|[a b] [x y] l es [H1 H2] H IH]; [reflexivity|]. cbn [fold_right fst snd] in *. unfold toy_rep in *. subst a b.
  assert (N0 : n <> 0) by discriminate. change (obj (toy r)) with Z in *. rewrite Z.add_mod, IH, <- Z.mul_mod, <- Z.add_mod by exact N0. reflexivity.
Qed.
Lemma toy_hashes r m d : hashes (toy r) (toy_rep r) m d (os2ip (m ++ d)).
Proof. exists (os2ip (m ++ d) mod n). split; reflexivity. Qed.
(** two parties, both variants: sign, aggregate, verify *)
Example C46_instance v : exists pks sgs agg,
  let r := rom_bls381_64 in let l := [(i2osp 5 32, [1; 2]); (i2osp 77 32, [3])] in
  Forall2 (fun q pk => secret_key_to_public_key r (toy r) (fst q) = Some (Ok pk)) l pks /\
  Forall2 (fun q sg => core_sign r (toy r) (fst q) (snd q) [9] = Some (Ok sg)) l sgs /\
  aggregate (toy r) sgs = Some (Ok agg) /\ core_aggregate_verify v (toy r) (toy r) (toy_pairs r) pks [[1; 2]; [3]] agg [9] = Some true /\
  core_aggregate_verify v (toy r) (toy r) (toy_pairs r) pks [[1; 2]; [4]] agg [9] = Some false.
Proof.
  exists [i2osp 5 32; i2osp 77 32], [i2osp (5 * os2ip [1; 2; 9]) 32; i2osp (77 * os2ip [3; 9]) 32], (i2osp (5 * os2ip [1; 2; 9] + 77 * os2ip [3; 9]) 32). cbv zeta.
  split; [apply Forall2_cons; [vm_compute; reflexivity|]; apply Forall2_cons; [vm_compute; reflexivity|]; apply Forall2_nil|]. split; [apply Forall2_cons; [vm_compute; reflexivity|]; apply Forall2_cons; [vm_compute; reflexivity|]; apply Forall2_nil|]. destruct v; (split; [vm_compute; reflexivity|split; vm_compute; reflexivity]).
Qed.
