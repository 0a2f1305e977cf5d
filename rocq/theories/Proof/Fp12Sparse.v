(** Sparse FP12 products agree with the dense product when the tags are truthful. *)
From Verif Require Import Base.Word Base.Arr Model.Big Model.Roms Model.Fp Model.Fp2 Model.Fp4 Model.Fp12 Spec.BigSpec Spec.RomSpec Spec.FpSpec Spec.TowerSpec Spec.TowerRep
  Proof.BigVal Proof.FpBase Proof.FpRed Proof.FpOps Proof.FpIv Proof.Fp2Ops Proof.Fp4Step Proof.Fp4Ops Proof.TowerRing Proof.Fp12Ops.

Ltac uT := unfold T_ONE, T_DENSE, T_SPARSE, T_SPARSER, T_ZERO in *.
Lemma typed_sparse tw t v : typed tw t v -> t = T_SPARSE -> match tw with DType => snd (c2 v) = zero2 | MType => fst (c1 v) = zero2 end.
Proof. intros [H|[[H1 H2]|[[H _]|[[H _]|[H _]]]]] E; uT; subst t; try discriminate. exact H2. Qed.
Lemma typed_sparser tw t v : typed tw t v -> t < T_SPARSE -> t <> T_ONE -> match tw with DType => snd (c1 v) = zero2 /\ c2 v = zero4 | MType => c1 v = zero4 /\ fst (c2 v) = zero2 end.
Proof. intros [H|[[H1 H2]|[[H H2]|[[H _]|[H H2]]]]] E E1; uT; subst t; try lia. exact H2. subst v. destruct tw; split; reflexivity. Qed.
Lemma typed_one tw t v : typed tw t v -> t = T_ONE -> v = one12.
Proof. intros [H|[[H1 H2]|[[H _]|[[H H2]|[H _]]]]] E; uT; subst t; try discriminate. exact H2. Qed.

Ltac n4pair := lazymatch goal with Hf : fp_ok ?r |- ex (fun z => bind (fp4_norm ?r (mkfp4 ?a ?b)) _ = Some z /\ _) =>
  lazymatch goal with HA : rep2 r ?lo ?hi ?e a ?u |- _ => lazymatch goal with HB : rep2 r ?lo2 ?hi2 ?e2 b ?v |- _ =>
    let f := fresh "f" in let E := fresh "E" in let Q := fresh "Q" in
    destruct (norm4_ok r Hf (Z.max lo lo2) (Z.max hi hi2) (Z.max e e2) (mkfp4 a b) (u, v)) as [f [E Q]];
    [lia|lia|lia|lia|split; cbn [f4a f4b fst snd]; [apply (rep2_mono r Hf lo hi e); [lia|lia|lia|exact HA]|apply (rep2_mono r Hf lo2 hi2 e2); [lia|lia|lia|exact HB]]|];
    rewrite E; cbn [bind]; clear E; destruct Q as [? ?]; cbn [fst snd] in * end end end.
Ltac o12' := unfold c0, c1, c2; cbn [fst snd].
Ltac g2 tac := lazymatch goal with Hf : fp_ok ?r |- rep2 ?r _ _ _ ?f ?v => lazymatch goal with H : rep2 r ?lo ?hi ?e f ?u |- _ =>
  apply (rep2_mono r Hf lo hi e); [lia|lia|lia|first [exact H|replace v with u by tac; exact H]] end end.

Section S.
Variable r : rom.
Hypothesis Hf : fp_ok r.
Hypothesis Ht : tower_ok r.
Variable tw : twist.
Notation p := (pmod r).
Let HFX : 16383 <= FEXCESS r. Proof. exact (proj1 (proj2 Ht)). Qed.
Let Hp0 : 0 < p := p_pos r Hf.
Let Hmg : 4 <= maxg r := maxg_ge r Hf.

Lemma new2_ok e : 1 <= e -> rep2 r 0 1 e (fp2_new r) zero2.
Proof. intros H. split; (apply (frep_mono r Hf 0 1 1); [lia|lia|lia|exact (inew r Hf)]). Qed.
Ltac fin4 := unfold fp4_norm; cbn [f4a f4b]; do 2 gstep; eexists; (split; [reflexivity|]); split; cbn [f4a f4b fst snd].

Lemma ssmul_z2_ok e1 e2 x y u v : 2 * e2 <= 524288 -> typed tw (f12t x) u -> typed tw (f12t y) v -> rep4 r 0 1 e1 (f12b x) (c1 u) -> rep4 r 0 1 e2 (f12b y) (c1 v) ->
  exists z, ssmul_z2 r tw x y = Some z /\ rep4 r 0 1 57 z (mul4 (c1 u) (c1 v)).
Proof.
  intros He Tx Ty HA HB. unfold ssmul_z2. destruct (negb (is_d tw) && _) eqn:Eb.
  2:{ apply (mul4_ok r Hf Ht e1 e2); [lia|assumption|assumption]. }
  apply andb_prop in Eb. destruct Eb as [Em Eb]. destruct tw; [discriminate|]. clear Em.
  pose proof (typed_sparse _ _ _ Tx) as Sx. pose proof (typed_sparse _ _ _ Ty) as Sy. cbn iota in Sx, Sy. pose proof (new2_ok 3 ltac:(lia)) as N0.
  destruct HA as [A1 A2]. destruct HB as [B1 B2]. gstep.
  destruct (Z.eqb_spec (f12t y) T_SPARSE) as [Ey|Ey]; destruct (Z.eqb_spec (f12t x) T_SPARSE) as [Ex|Ex]; cbn [orb] in Eb; try discriminate; cbn [negb].
  - specialize (Sx Ex). specialize (Sy Ey). cbn [bind]. destruct (times_i4_ok r Hf 3 (mkfp4 (fp2_new r) f) (zero2, mul2 (snd (c1 u)) (snd (c1 v)))) as [z [E1 Q1]]; [split; assumption|].
    exists z. split; [exact E1|]. apply (rep4_mono r Hf 0 1 15); [lia|lia|lia|]. replace (mul4 (c1 u) (c1 v)) with (mul4 w4 (zero2, mul2 (snd (c1 u)) (snd (c1 v)))); [exact Q1|].
    unfold mul4, w4. cbn [fst snd]. rewrite Sx, Sy. f_equal; ring.
  - specialize (Sy Ey). cbn [bind]. gstep.
    destruct (times_i4_ok r Hf 3 (mkfp4 f0 f) (mul2 (fst (c1 u)) (snd (c1 v)), mul2 (snd (c1 u)) (snd (c1 v)))) as [z [E1 Q1]]; [split; assumption|].
    exists z. split; [exact E1|]. apply (rep4_mono r Hf 0 1 15); [lia|lia|lia|]. replace (mul4 (c1 u) (c1 v)) with (mul4 w4 (mul2 (fst (c1 u)) (snd (c1 v)), mul2 (snd (c1 u)) (snd (c1 v)))); [exact Q1|].
    unfold mul4, w4. cbn [fst snd]. rewrite Sy. f_equal; ring.
  - specialize (Sx Ex). gstep. cbn [bind].
    destruct (times_i4_ok r Hf 3 (mkfp4 f0 f) (mul2 (snd (c1 u)) (fst (c1 v)), mul2 (snd (c1 u)) (snd (c1 v)))) as [z [E1 Q1]]; [split; assumption|].
    exists z. split; [exact E1|]. apply (rep4_mono r Hf 0 1 15); [lia|lia|lia|]. replace (mul4 (c1 u) (c1 v)) with (mul4 w4 (mul2 (snd (c1 u)) (fst (c1 v)), mul2 (snd (c1 u)) (snd (c1 v)))); [exact Q1|].
    unfold mul4, w4. cbn [fst snd]. rewrite Sx. f_equal; ring.
Qed.
Lemma ssmul_t0_ok e1 e2 x y u v : 2 * e2 <= 524288 -> typed tw (f12t x) u -> typed tw (f12t y) v -> rep4 r 0 1 e1 (f12c x) (c2 u) -> rep4 r 0 1 e2 (f12c y) (c2 v) ->
  exists z, ssmul_t0 r tw x y = Some z /\ rep4 r 0 1 57 z (mul4 (c2 u) (c2 v)).
Proof.
  intros He Tx Ty HA HB. unfold ssmul_t0. destruct (is_d tw && _) eqn:Eb.
  2:{ apply (mul4_ok r Hf Ht e1 e2); [lia|assumption|assumption]. }
  apply andb_prop in Eb. destruct Eb as [Em Eb]. destruct tw; [|discriminate]. clear Em.
  pose proof (typed_sparse _ _ _ Tx) as Sx. pose proof (typed_sparse _ _ _ Ty) as Sy. cbn iota in Sx, Sy. pose proof (new2_ok 3 ltac:(lia)) as N0.
  destruct HA as [A1 A2]. destruct HB as [B1 B2]. gstep.
  destruct (Z.eqb_spec (f12t y) T_SPARSE) as [Ey|Ey]; destruct (Z.eqb_spec (f12t x) T_SPARSE) as [Ex|Ex]; cbn [orb] in Eb; try discriminate; cbn [negb].
  - specialize (Sx Ex). specialize (Sy Ey). cbn [bind]. eexists. split; [reflexivity|]. split; unfold mul4; cbn [f4a f4b fst snd]; rewrite Sx, Sy.
    + replace (add2 _ _) with (mul2 (fst (c2 u)) (fst (c2 v))) by ring. gmono.
    + replace (add2 _ _) with zero2 by ring. gmono.
  - specialize (Sy Ey). cbn [bind]. gstep. eexists. split; [reflexivity|]. split; unfold mul4; cbn [f4a f4b fst snd]; rewrite Sy.
    + replace (add2 _ _) with (mul2 (fst (c2 u)) (fst (c2 v))) by ring. gmono.
    + replace (add2 _ _) with (mul2 (snd (c2 u)) (fst (c2 v))) by ring. gmono.
  - specialize (Sx Ex). gstep. cbn [bind]. eexists. split; [reflexivity|]. split; unfold mul4; cbn [f4a f4b fst snd]; rewrite Sx.
    + replace (add2 _ _) with (mul2 (fst (c2 u)) (fst (c2 v))) by ring. gmono.
    + replace (add2 _ _) with (mul2 (fst (c2 u)) (snd (c2 v))) by ring. gmono.
Qed.
Lemma smul_ok e1 e2 x y u v : 2 * e2 <= 524288 ->
  match tw with DType => snd (c1 u) = zero2 /\ c2 u = zero4 | MType => c1 u = zero4 /\ fst (c2 u) = zero2 end ->
  match tw with DType => snd (c1 v) = zero2 /\ c2 v = zero4 | MType => c1 v = zero4 /\ fst (c2 v) = zero2 end ->
  rep12 r e1 x u -> rep12 r e2 y v -> exists z, fp12_smul r tw x y = Some z /\ rep12 r 11172 z (mul12 u v) /\ typed tw (f12t z) (mul12 u v).
Proof.
  intros He Su Sv [[A1 A2] [[A3 A4] [A5 A6]]] [[B1 B2] [[B3 B4] [B5 B6]]]. o12 u. o12 v. unfold fp12_smul. cbv zeta. pose proof (new2_ok 1 ltac:(lia)) as N0.
  repeat match goal with q : Z4 |- _ => destruct q as [? ?] end. cbn [fst snd] in *. destruct tw; cbn [is_d].
  - destruct Su as [-> Su]. inversion Su; subst. destruct Sv as [-> Sv]. inversion Sv; subst. clear Su Sv.
    do 29 gstep. n4pair. n4pair. eexists. split; [reflexivity|]. split; [|right; left; split; [reflexivity|unfold mul12, add4, mul4, zero4, w4; o12' ; ring]].
    unfold mul12. spl12; o12'; (split; cbn [f4a f4b fp4_of2 fst snd]; [unfold add4, mul4, zero4, w4; cbn [fst snd] ..]); g2 ltac:(ring).
  - destruct Su as [Su ->]. inversion Su; subst. destruct Sv as [Sv ->]. inversion Sv; subst. clear Su Sv.
    do 33 gstep. n4pair. n4pair. eexists. split; [reflexivity|]. split; [|right; left; split; [reflexivity|unfold mul12, add4, mul4, zero4, w4; o12' ; ring]].
    unfold mul12. spl12; o12'; (split; cbn [f4a f4b fp4_of2h fst snd]; [unfold add4, mul4, zero4, w4; cbn [fst snd] ..]); g2 ltac:(ring).
Qed.
Lemma ssmul_ok e1 e2 x y u v : 4 * e2 <= 524288 -> 1 <= e1 -> 1 <= e2 -> typed tw (f12t x) u -> typed tw (f12t y) v -> rep12 r e1 x u -> rep12 r e2 y v ->
  exists z, fp12_ssmul r tw x y = Some z /\ rep12 r (Z.max (Z.max e1 e2) 11172) z (mul12 u v) /\ typed tw (f12t z) (mul12 u v).
Proof.
  intros He Hx1 Hy1 Tx Ty HA HB. unfold fp12_ssmul. destruct (Z.eqb_spec (f12t x) T_ONE) as [E1|E1].
  { pose proof (typed_one _ _ _ Tx E1) as ->. exists y. split; [reflexivity|]. replace (mul12 one12 v) with v by ring. split; [|exact Ty]. apply (rep12_mono r Hf e2); [lia|exact HB]. }
  destruct (Z.eqb_spec (f12t y) T_ONE) as [E2|E2].
  { pose proof (typed_one _ _ _ Ty E2) as ->. exists x. split; [reflexivity|]. replace (mul12 u one12) with u by ring. split; [|exact Tx]. apply (rep12_mono r Hf e1); [lia|exact HA]. }
  destruct (Z.leb_spec T_SPARSE (f12t y)) as [L|L].
  - pose proof (ssmul_z2_ok e1 e2 x y u v ltac:(lia) Tx Ty (proj1 (proj2 HA)) (proj1 (proj2 HB))) as [s2 [Es2 Qs2]].
    pose proof (ssmul_t0_ok e1 e2 x y u v ltac:(lia) Tx Ty (proj2 (proj2 HA)) (proj2 (proj2 HB))) as [s0 [Es0 Qs0]].
    destruct HA as [A1 [A2 A3]]. destruct HB as [B1 [B2 B3]]. clear Tx Ty. o12 u. o12 v.
    hstep. rewrite Es2. cbn [bind]. do 22 hstep. rewrite Es0. cbn [bind]. do 8 hstep. hnorm3. split; [|left; reflexivity]. spl12; u12; hmono ltac:(ring).
  - pose proof (typed_sparser _ _ _ Ty L E2) as Sy. destruct (Z.eqb_spec (f12t x) T_SPARSER) as [E3|E3].
    { pose proof (typed_sparser _ _ _ Tx ltac:(uT; lia) E1) as Sx. destruct (smul_ok e1 e2 x y u v ltac:(lia) Sx Sy HA HB) as [z [F1 [F2 F3]]]. exists z. split; [exact F1|]. split; [|exact F3]. apply (rep12_mono r Hf 11172); [lia|exact F2]. }
    clear Tx Ty. destruct HA as [A1 [A2 A3]]. destruct HB as [B1 [B2 B3]]. o12 u. o12 v. cbv zeta. destruct tw.
    + destruct Sy as [Sy ->]. destruct z3 as [y0 y1]. cbn [snd] in Sy. subst y1. destruct B2 as [B2 B2']. cbn [fst snd] in B2, B2'. pose proof B1 as [B1a B1b].
      do 3 hstep. unfold fp4_padd at 1. assert (P1 : exists t1, (a <- fp2_add r (f4a (f12a y)) (f4a (f12b y));; Some (mkfp4 a (f4b (f12a y)))) = Some t1 /\ rep4 r 0 2 (2 * e2) t1 (add4 z2 (of2 y0))).
      { gstep. eexists. split; [reflexivity|]. split; cbn [f4a f4b fst snd add4 of2]; [gmono|]. apply (rep2_mono r Hf 0 1 e2); [lia|lia|lia|]. replace (add2 (snd z2) zero2) with (snd z2) by ring. exact B1b. }
      destruct P1 as [t1 [Et Qt]]. rewrite Et. cbn [bind]. clear Et. do 19 hstep. hnorm3. split; [|left; reflexivity].
      destruct z as [? ?], z0 as [? ?], z1 as [? ?], z2 as [? ?]. cbn [fst snd] in *. spl12; u12; hmono ltac:(unfold add4, neg4, mul4, zero4, w4, of2; cbn [fst snd]; f_equal; ring).
    + destruct Sy as [-> Sy]. destruct z4 as [y0 y1]. cbn [fst] in Sy. subst y0. pose proof B3 as [B3a B3b]. cbn [fst snd] in B3a, B3b.
      do 10 hstep. cbv zeta. do 16 hstep. hnorm3. split; [|left; reflexivity].
      destruct z as [? ?], z0 as [? ?], z1 as [? ?], z2 as [? ?]. cbn [fst snd] in *. spl12; u12; hmono ltac:(unfold add4, neg4, mul4, zero4, w4, of2; cbn [fst snd]; f_equal; ring).
Qed.
End S.
