(** The BLS schemes over any two groups with a pairing. *)
From Verif Require Import Base.Word Base.Arr Model.Big Model.Roms Model.HashToCurve Model.Bls Model.BlsScheme Spec.Bytes Spec.BigSpec Spec.BlsSchemeSpec
  Proof.BlsRoms Proof.BlsInst.
From Coq Require Import Lia.

Section P.
Variable r : rom.
Hypothesis HR : In r bls_roms.
Notation c := (r_cfg r).
Notation n := bls381_n.
Variable v : variant.
Variables S K : grp.
Variables sS sK : nat.
Variable repS : obj S -> Z -> Prop.
Variable repK : obj K -> Z -> Prop.
Hypothesis HS : grp_ok c n sS S repS.
Hypothesis HK : grp_ok c n sK K repK.
Variable pairs : list (obj K * obj S) -> option bool.
Hypothesis HP : pairs_ok n repK repS pairs.
Notation pk_of := (secret_key_to_public_key r K).
Notation sign := (core_sign r S).
Notation verify := (core_verify v S K pairs).
Notation averify := (core_aggregate_verify v S K pairs).

Lemma n0 : 0 < n. Proof. reflexivity. Qed.
Definition valid_key (sk : list Z) : Prop := bytes sk /\ length sk = 32%nat /\ os2ip sk < n.
Lemma key_ok sk : valid_key sk -> exists s, secret_key_from_bytes r sk = Some (Ok s) /\ big_wf c s /\ bval c s = os2ip sk.
Proof. intros [B [L G]]. destruct (sk_from r HR sk B L) as [s [W [V E]]]. exists s. destruct (Z.ltb_spec (os2ip sk) n); [|lia]. auto. Qed.

Lemma dec (G : grp) rep sz b k : grp_ok c n sz G rep -> bytes b -> denotes G rep b k -> exists P, g_deser G b = Some (Ok P) /\ g_check G P = Some true /\ rep P k.
Proof.
  intros HG B [P [E R]]. exists P. split; [exact E|]. split; [|exact R]. destruct (deser_ok _ _ _ _ _ HG b B) as [[e Q]|[P' [ok [Q1 [Q2 Q3]]]]]; [congruence|]. rewrite E in Q1. injection Q1 as <-. rewrite Q2. f_equal. apply Q3. exists k. exact R.
Qed.
(** a byte string: refused, outside the group, or an element *)
Lemma trich (G : grp) rep sz b : grp_ok c n sz G rep -> bytes b ->
  (exists e, g_deser G b = Some (Err e)) /\ (forall k, ~ denotes G rep b k) \/ (exists P, g_deser G b = Some (Ok P) /\ g_check G P = Some false /\ (forall k, ~ denotes G rep b k)) \/
  (exists P k, g_deser G b = Some (Ok P) /\ g_check G P = Some true /\ rep P k).
Proof.
  intros HG B. destruct (deser_ok _ _ _ _ _ HG b B) as [[e Q]|[P [ok [Q1 [Q2 Q3]]]]].
  - left. split; [exists e; exact Q|]. intros k [P [E _]]. congruence.
  - right. destruct ok.
    + right. destruct (proj1 Q3 eq_refl) as [k Hk]. exists P, k. auto.
    + left. exists P. split; [exact Q1|]. split; [exact Q2|]. intros k [P' [E R]]. rewrite Q1 in E. injection E as <-. discriminate (proj2 Q3 (ex_intro _ k R)).
Qed.
Lemma denotes_cg (G : grp) rep sz b k k' : grp_ok c n sz G rep -> denotes G rep b k -> denotes G rep b k' -> cg n k k'.
Proof. intros HG [P [E R]] [P' [E' R']]. rewrite E in E'. injection E' as <-. exact (rep_fun _ _ _ _ _ HG P k k' R R'). Qed.
Lemma denotes_eq (G : grp) rep sz b k k' : grp_ok c n sz G rep -> denotes G rep b k -> cg n k k' -> denotes G rep b k'.
Proof. intros HG [P [E R]] C. exists P. split; [exact E|]. exact (rep_cg _ _ _ _ _ HG P k k' R C). Qed.

Theorem pk_ok sk : valid_key sk -> exists pk, pk_of sk = Some (Ok pk) /\ length pk = sK /\ bytes pk /\ denotes K repK pk (os2ip sk).
Proof.
  intros H. destruct (key_ok sk H) as [s [E [W V]]]. unfold secret_key_to_public_key. rewrite E. cbn [rbind]. destruct (gen_ok _ _ _ _ _ HK) as [g [G1 G2]]. rewrite G1. cbn [bind].
  destruct (mul_ok _ _ _ _ _ HK g 1 s G2 W ltac:(rewrite V; exact (proj2 (proj2 H)))) as [Q [Q1 Q2]]. rewrite Q1. cbn [bind]. destruct (ser_ok _ _ _ _ _ HK Q _ Q2) as [b [R [B1 [B2 [B3 [B4 B5]]]]]]. rewrite B1. cbn [bind]. exists b. rewrite V, Z.mul_1_l in B5. split; [reflexivity|]. split; [exact B2|]. split; [exact B3|]. exists R. auto.
Qed.
Theorem sign_ok sk msg dst h : valid_key sk -> hashes S repS msg dst h -> exists sg, sign sk msg dst = Some (Ok sg) /\ length sg = sS /\ bytes sg /\ denotes S repS sg (h * os2ip sk).
Proof.
  intros H [Hh [H1 H2]]. destruct (key_ok sk H) as [s [E [W V]]]. unfold core_sign. rewrite E. cbn [rbind]. rewrite H1. cbn [bind].
  destruct (mul_ok _ _ _ _ _ HS Hh h s H2 W ltac:(rewrite V; exact (proj2 (proj2 H)))) as [Q [Q1 Q2]]. rewrite Q1. cbn [bind]. destruct (ser_ok _ _ _ _ _ HS Q _ Q2) as [b [R [B1 [B2 [B3 [B4 B5]]]]]]. rewrite B1. cbn [bind]. exists b. rewrite V in B5. split; [reflexivity|]. split; [exact B2|]. split; [exact B3|]. exists R. auto.
Qed.
Lemma sum0 a b : (a * -1 + b) mod n =? 0 = true <-> cg n a b.
Proof.
  rewrite Z.eqb_eq. unfold cg. pose proof n0 as N0. split; intros H.
  - replace b with (a + (a * -1 + b)) by ring. rewrite Z.add_mod, H by lia. rewrite Z.add_0_r, Z.mod_mod by lia. reflexivity.
  - replace (a * -1 + b) with (b - a) by ring. rewrite Zminus_mod, H, Z.sub_diag. apply Z.mod_0_l. lia.
Qed.
(** the pairing check for a signature with exponent k and any further pairs *)
Lemma check_pairs sg k l es : repS sg k -> Forall2 (fun q e => repK (fst q) (fst e) /\ repS (snd q) (snd e)) l es ->
  exists g ng ans, g_gen K = Some g /\ g_neg K g = Some ng /\ pairs ((ng, sg) :: l) = Some ans /\ (ans = true <-> cg n k (fold_right (fun e s => fst e * snd e + s) 0 es)).
Proof.
  intros Hk HF. destruct (gen_ok _ _ _ _ _ HK) as [g [G1 G2]]. destruct (neg_ok _ _ _ _ _ HK g 1 G2) as [ng [N1 N2]].
  exists g, ng, ((fold_right (fun e s => fst e * snd e + s) 0 ((-1, k) :: es)) mod n =? 0). split; [exact G1|]. split; [exact N1|]. split.
  - apply HP. constructor; [cbn [fst snd]; auto|exact HF].
  - cbn [fold_right fst snd]. rewrite Z.mul_comm. apply sum0.
Qed.
Lemma either_false sg pk : g_check S sg = Some true -> g_check K pk = Some true -> either_bad v S K sg pk = Some false.
Proof. intros H1 H2. unfold either_bad. destruct v; rewrite H1, H2; reflexivity. Qed.
Lemma either_true sg pk a b : g_check S sg = Some a -> g_check K pk = Some b -> a = false \/ b = false -> either_bad v S K sg pk = Some true.
Proof. intros H1 H2 D. unfold either_bad. destruct v; rewrite H1, H2; cbn [bind]; destruct a, b; cbn [bind negb]; try reflexivity; destruct D; discriminate. Qed.

Lemma tail_ok sg pk msg dst h k l : repS sg k -> repK pk l -> hashes S repS msg dst h -> exists ans, pair_check S K pairs sg pk msg dst = Some ans /\ (ans = true <-> cg n k (h * l)).
Proof.
  intros Hk Hl [Hh [H1 H2]]. unfold pair_check. rewrite H1. cbn [bind]. destruct (check_pairs sg k [(pk, Hh)] [(l, h)] Hk) as [g [ng [ans [E1 [E2 [E3 E4]]]]]]. { constructor; [cbn [fst snd]; auto|constructor]. }
  rewrite E1. cbn [bind]. rewrite E2. cbn [bind]. exists ans. split; [exact E3|]. rewrite E4. cbn [fold_right fst snd]. rewrite Z.add_0_r, Z.mul_comm. reflexivity.
Qed.
Theorem verify_iff pk msg sg dst h : bytes pk -> bytes sg -> hashes S repS msg dst h ->
  exists ans, verify pk msg sg dst = Some ans /\ (ans = true <-> exists l, denotes K repK pk l /\ denotes S repS sg (h * l)).
Proof.
  intros B1 B2 HH. unfold core_verify. destruct (trich K repK sK pk HK B1) as [[[e E] N]|[[P [E [C N]]]|[P [l [E [C R]]]]]]; rewrite E; cbn [bind].
  - destruct (trich S repS sS sg HS B2) as [[[e' E'] _]|[[Q [E' _]]|[Q [k [E' _]]]]]; rewrite E'; cbn [bind]; (exists false; split; [reflexivity|]; split; [discriminate|]; intros [l [D _]]; contradiction (N l D)).
  - destruct (trich S repS sS sg HS B2) as [[[e' E'] _]|[[Q [E' [C' _]]]|[Q [k [E' [C' _]]]]]]; rewrite E'; cbn [bind];
      [exists false; split; [reflexivity|]; split; [discriminate|]; intros [l [D _]]; contradiction (N l D)| |];
      rewrite (either_true Q P _ _ C' C ltac:(auto)); cbn [bind]; (exists false; split; [reflexivity|]; split; [discriminate|]; intros [l [D _]]; contradiction (N l D)).
  - destruct (trich S repS sS sg HS B2) as [[[e' E'] N]|[[Q [E' [C' N]]]|[Q [k [E' [C' R']]]]]]; rewrite E'; cbn [bind].
    + exists false. split; [reflexivity|]. split; [discriminate|]. intros [m [_ D]]. contradiction (N _ D).
    + rewrite (either_true Q P _ _ C' C ltac:(auto)). cbn [bind]. exists false. split; [reflexivity|]. split; [discriminate|]. intros [m [_ D]]. contradiction (N _ D).
    + rewrite (either_false Q P C' C). cbn [bind]. destruct (tail_ok Q P msg dst h k l R' R HH) as [ans [A1 A2]]. exists ans. split; [exact A1|]. rewrite A2. split.
      * intros CG. exists l. split; [exists P; auto|]. exists Q. split; [exact E'|]. exact (rep_cg _ _ _ _ _ HS Q _ _ R' CG).
      * intros [m [D1 D2]]. assert (C1 : cg n l m) by (apply (denotes_cg K repK sK pk l m HK); [exists P; auto|exact D1]). assert (C2 : cg n k (h * m)) by (apply (denotes_cg S repS sS sg k _ HS); [exists Q; auto|exact D2]).
        unfold cg in *. rewrite C2. pose proof n0. rewrite Z.mul_mod, <- C1, <- Z.mul_mod by lia. reflexivity.
Qed.

Lemma agg_loop_ok : forall pts ks acc a, repS acc a -> Forall2 (denotes S repS) pts ks ->
  exists R, agg_loop S acc pts = Some (Ok R) /\ repS R (a + fold_right Z.add 0 ks).
Proof.
  induction pts as [|b pts IH]; intros ks acc a HA HF; inversion HF as [|? k ? ks' D F]; subst.
  - exists acc. split; [reflexivity|]. cbn [fold_right]. rewrite Z.add_0_r. exact HA.
  - destruct D as [P [E R]]. cbn [agg_loop fold_right]. rewrite E. cbn [rbind]. destruct (add_ok _ _ _ _ _ HS acc P a k HA R) as [Q [Q1 Q2]]. rewrite Q1. cbn [bind].
    destruct (IH ks' Q (a + k) Q2 F) as [T [T1 T2]]. exists T. split; [exact T1|]. rewrite Z.add_assoc. exact T2.
Qed.
Theorem aggregate_ok pts ks : pts <> [] -> Forall2 (denotes S repS) pts ks -> exists b, aggregate S pts = Some (Ok b) /\ length b = sS /\ bytes b /\ denotes S repS b (fold_right Z.add 0 ks).
Proof.
  intros NE HF. destruct pts as [|b0 pts]; [contradiction|]. inversion HF as [|? k ? ks' [P [E R]] F]; subst. unfold aggregate. rewrite E. cbn [rbind].
  destruct (agg_loop_ok pts ks' P k R F) as [T [T1 T2]]. rewrite T1. cbn [rbind]. destruct (ser_ok _ _ _ _ _ HS T _ T2) as [b [Q [B1 [B2 [B3 [B4 B5]]]]]]. rewrite B1. cbn [bind]. exists b. split; [reflexivity|]. split; [exact B2|]. split; [exact B3|]. exists Q. auto.
Qed.
Lemma agg_loop_bad : forall pts ks acc a b e rest, repS acc a -> Forall2 (denotes S repS) pts ks -> g_deser S b = Some (Err e) -> agg_loop S acc (pts ++ b :: rest) = Some (Err e).
Proof.
  induction pts as [|x pts IH]; intros ks acc a b e rest HA HF HB; inversion HF as [|? k ? ks' [P [E R]] F]; subst; cbn [app agg_loop].
  - rewrite HB. reflexivity.
  - rewrite E. cbn [rbind]. destruct (add_ok _ _ _ _ _ HS acc P a k HA R) as [Q [Q1 Q2]]. rewrite Q1. cbn [bind]. exact (IH ks' Q _ b e rest Q2 F HB).
Qed.
Theorem aggregate_bad pts ks b e rest : Forall2 (denotes S repS) pts ks -> g_deser S b = Some (Err e) -> aggregate S (pts ++ b :: rest) = Some (Err e).
Proof.
  intros HF HB. destruct pts as [|x pts]; cbn [app aggregate].
  - rewrite HB. reflexivity.
  - inversion HF as [|? k ? ks' [P [E R]] F]; subst. rewrite E. cbn [rbind]. rewrite (agg_loop_bad pts ks' P k b e rest R F HB). reflexivity.
Qed.

Definition dot (ls hs : list Z) : Z := fold_right Z.add 0 (map (fun q => fst q * snd q) (combine ls hs)).
Lemma loop_ok dst : forall pks msgs hs, length pks = length msgs -> Forall bytes pks -> Forall2 (fun m h => hashes S repS m dst h) msgs hs ->
  exists o, keys_loop S K pks msgs dst = Some o /\
    match o with
    | Some l => exists ls, Forall2 (denotes K repK) pks ls /\ Forall2 (fun q e => repK (fst q) (fst e) /\ repS (snd q) (snd e)) l (combine ls hs)
    | None => forall ls, ~ Forall2 (denotes K repK) pks ls
    end.
Proof.
  induction pks as [|pk pks IH]; intros msgs hs L B HF.
  - exists (Some []). split; [reflexivity|]. exists []. split; constructor.
  - destruct msgs as [|m msgs]; [discriminate L|]. inversion HF as [|? h ? hs' [Hh [H1 H2]] F]; subst. inversion_clear B as [|? ? B1 B2]. cbn [keys_loop].
    destruct (trich K repK sK pk HK B1) as [[[e E] N]|[[P [E [C N]]]|[P [l [E [C R]]]]]]; rewrite E; cbn [bind].
    + exists None. split; [reflexivity|]. intros ls D. inversion D as [|? k ? ? D1 _]. contradiction (N k D1).
    + rewrite C. cbn [bind negb]. exists None. split; [reflexivity|]. intros ls D. inversion D as [|? k ? ? D1 _]. contradiction (N k D1).
    + rewrite C. cbn [bind negb]. rewrite H1. cbn [bind]. destruct (IH msgs hs' ltac:(cbn [length] in L; lia) B2 F) as [o [O1 O2]]. rewrite O1. cbn [bind]. destruct o as [q|].
      * destruct O2 as [ls [O2 O3]]. exists (Some ((P, Hh) :: q)). split; [reflexivity|]. exists (l :: ls). split; [constructor; [exists P; auto|exact O2]|]. cbn [combine]. constructor; [cbn [fst snd]; auto|exact O3].
      * exists None. split; [reflexivity|]. intros ls D. inversion D as [|? k ? ls' _ D2]. exact (O2 ls' D2).
Qed.
Lemma fold_dot es : fold_right (fun e s => fst e * snd e + s) 0 es = fold_right Z.add 0 (map (fun q => fst q * snd q) es).
Proof. induction es as [|e es IH]; [reflexivity|]. cbn [fold_right map]. rewrite IH. reflexivity. Qed.
Lemma dot_cg pks : forall ls ls' hs, Forall2 (denotes K repK) pks ls -> Forall2 (denotes K repK) pks ls' -> cg n (dot ls hs) (dot ls' hs).
Proof.
  induction pks as [|pk pks IH]; intros ls ls' hs H1 H2; inversion H1 as [|? a ? t A1 A2]; inversion H2 as [|? b ? t' B1 B2]; subst; [reflexivity|].
  destruct hs as [|h hs]; [reflexivity|]. specialize (IH t t' hs A2 B2). pose proof (denotes_cg K repK sK pk a b HK A1 B1) as CG. unfold dot, cg in *. cbn [combine map fold_right fst snd]. pose proof n0.
  rewrite Z.add_mod, IH, (Z.mul_mod a h), CG, <- Z.mul_mod, <- Z.add_mod by lia. reflexivity.
Qed.
Theorem averify_iff pks msgs sg dst hs : Forall bytes pks -> bytes sg -> Forall2 (fun m h => hashes S repS m dst h) msgs hs ->
  exists ans, averify pks msgs sg dst = Some ans /\
    (ans = true <-> pks <> [] /\ length pks = length msgs /\ exists ls, Forall2 (denotes K repK) pks ls /\ denotes S repS sg (dot ls hs)).
Proof.
  intros B1 B2 HF. unfold core_aggregate_verify.
  destruct ((length pks =? 0)%nat || negb (length pks =? length msgs)%nat) eqn:BL.
  { assert (NO : ~ (pks <> [] /\ length pks = length msgs /\ exists ls, Forall2 (denotes K repK) pks ls /\ denotes S repS sg (dot ls hs))).
    { intros [NE [L _]]. rewrite L in BL. rewrite Nat.eqb_refl in BL. cbn [negb] in BL. rewrite orb_false_r in BL. apply Nat.eqb_eq in BL. rewrite <- L in BL. destruct pks; [contradiction|discriminate]. }
    destruct v; [exists false; split; [reflexivity|]; split; [discriminate|contradiction]|].
    destruct (trich S repS sS sg HS B2) as [[[e' E'] _]|[[Q [E' _]]|[Q [k [E' _]]]]]; rewrite E'; cbn [bind]; (exists false; split; [reflexivity|]; split; [discriminate|contradiction]). }
  apply orb_false_iff in BL. destruct BL as [L1 L2]. apply negb_false_iff, Nat.eqb_eq in L2. apply Nat.eqb_neq in L1.
  replace (match v with SigG1 => false | SigG2 => false end) with false by (destruct v; reflexivity).
  destruct (trich S repS sS sg HS B2) as [[[e' E'] N]|[[Q [E' [C' N]]]|[Q [k [E' [C' R']]]]]]; rewrite E'; cbn [bind].
  - exists false. split; [reflexivity|]. split; [discriminate|]. intros [_ [_ [ls [_ D]]]]. contradiction (N _ D).
  - rewrite C'. cbn [bind negb]. exists false. split; [reflexivity|]. split; [discriminate|]. intros [_ [_ [ls [_ D]]]]. contradiction (N _ D).
  - rewrite C'. cbn [bind negb]. destruct (loop_ok dst pks msgs hs L2 B1 HF) as [o [O1 O2]]. destruct o as [l|].
    + destruct O2 as [ls [O2 O3]]. destruct (check_pairs Q k l _ R' O3) as [g [ng [ans [E1 [E2 [E3 E4]]]]]]. rewrite E1. cbn [bind]. rewrite E2. cbn [bind]. rewrite O1. cbn [bind]. exists ans. split; [exact E3|]. rewrite E4, fold_dot. split.
      * intros CG. split; [intros ->; apply L1; reflexivity|]. split; [exact L2|]. exists ls. split; [exact O2|]. exists Q. split; [exact E'|]. exact (rep_cg _ _ _ _ _ HS Q _ _ R' CG).
      * intros [_ [_ [ls' [D1 D2]]]]. assert (C2 : cg n k (dot ls' hs)) by (apply (denotes_cg S repS sS sg k _ HS); [exists Q; auto|exact D2]). unfold cg in *. rewrite C2. exact (dot_cg pks ls' ls hs D1 O2).
    + destruct (gen_ok _ _ _ _ _ HK) as [g [G1 G2]]. destruct (neg_ok _ _ _ _ _ HK g 1 G2) as [ng [N1 N2]]. rewrite G1. cbn [bind]. rewrite N1. cbn [bind]. rewrite O1. cbn [bind]. exists false. split; [reflexivity|]. split; [discriminate|]. intros [_ [_ [ls [D _]]]]. contradiction (O2 ls D).
Qed.
End P.
