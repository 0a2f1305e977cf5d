(** Checking that n G is the point at infinity, given the slopes of a double-and-add computation. *)
From Verif Require Import Base.Word Base.Arr Model.Big Model.Roms Spec.BigSpec Spec.RomSpec Spec.FpSpec Spec.CurveSpec Spec.EcpSpec Proof.FieldP Proof.Weier Proof.EcpOps Proof.EcpW Proof.EcpBridge Proof.EcpMul Proof.EcpInst Proof.EcpCodec3 Proof.FpBase Proof.FpOps Proof.FpSqrt.
From Coq Require Import Znumtheory.

(** v mod (2^e - d), by folding twice *)
Definition fold (e d v : Z) : Z := d * Z.shiftr v e + Z.land v (Z.ones e).
Definition red (e d v : Z) : Z := let p := 2 ^ e - d in let u := fold e d (fold e d v) in if (0 <=? u) && (u <? p) then u else u mod p.
Lemma fold_ok e d v : 0 <= e -> 0 < 2 ^ e - d -> fold e d v mod (2 ^ e - d) = v mod (2 ^ e - d).
Proof.
  intros He Hp. unfold fold. rewrite Z.shiftr_div_pow2, Z.land_ones by lia. pose proof (pow2_pos e He). rewrite (Z.div_mod v (2 ^ e)) at 3 by lia.
  replace (2 ^ e * (v / 2 ^ e) + v mod 2 ^ e) with (d * (v / 2 ^ e) + v mod 2 ^ e + (v / 2 ^ e) * (2 ^ e - d)) by ring. rewrite Z.mod_add by lia. reflexivity.
Qed.
Lemma red_ok e d p v : 0 <= e -> 0 < p -> p = 2 ^ e - d -> red e d v = v mod p.
Proof.
  intros He Hp ->. unfold red. cbv zeta. set (u := fold e d (fold e d v)). assert (U : u mod (2 ^ e - d) = v mod (2 ^ e - d)) by (unfold u; rewrite !fold_ok by assumption; reflexivity).
  destruct (Z.leb_spec 0 u); cbn [andb]; [|exact U]. destruct (Z.ltb_spec u (2 ^ e - d)); [|exact U]. rewrite <- U. symmetry. apply Z.mod_small. lia.
Qed.
Section Cert.
Variables (md : Z -> Z) (a gx gy : Z).
Fixpoint climb (l : list (bool * Z)) (x y k : Z) : option (Z * Z * Z) :=
  match l with
  | [] => Some (x, y, k)
  | (false, s) :: t => if (md (s * (2 * y) - (3 * x * x + a)) =? 0) && negb (md (y + y) =? 0)
      then let x3 := md (s * s - x - x) in climb t x3 (md (s * (x - x3) - y)) (2 * k) else None
  | (true, s) :: t => if (md (s * (gx - x) - (gy - y)) =? 0) && negb (x =? gx)
      then let x3 := md (s * s - x - gx) in climb t x3 (md (s * (x - x3) - y)) (k + 1) else None
  end.
Definition order_check (l : list (bool * Z)) (n : Z) : bool := match climb l gx gy 1 with Some (x, y, k) => (x =? gx) && (md (y + gy) =? 0) && (k + 1 =? n) | None => false end.
End Cert.

Section Sound.
Variable r : rom.
Hypothesis HW : weierstrass r.
Notation p := (pmod r).
Notation a := (cA r).
Notation b := (cB r).
Let Hw : w_ok r := proj1 HW.
Let Hp : prime p := proj1 (proj2 HW).
Let Hn2 : no_order2 p a b := proj2 (proj2 HW).
Let P3 : 3 < p := p_gt3 r (proj1 Hw).
Let WG := w_group r Hw Hp Hn2.
Variables gx gy : Z.
Variable md : Z -> Z.
Hypothesis MD : forall v, md v = v mod p.
Hypothesis OG : on_w p a b (Aff gx gy).
Notation zt := (ztimes (apt p) (AInf p) (asum p (mk p a)) (aneg p)).
Notation g := (ak p (Aff gx gy)).
Let Og : aon p (mk p a) (mk p b) g := on_ak p Hp a b _ OG.
Lemma climb_ok l : forall x y k x' y' k', on_w p a b (Aff x y) -> 0 < k -> ak p (Aff x y) = zt k g -> climb md a gx gy l x y k = Some (x', y', k') ->
  on_w p a b (Aff x' y') /\ 0 < k' /\ ak p (Aff x' y') = zt k' g.
Proof.
  assert (ML : forall s x x3 y, (s * (x - x3 mod p) - y) mod p = (s * (x - x3) - y) mod p) by (intros s x x3 y; rewrite (Z.div_mod x3 p) at 2 by lia; replace (s * (x - (p * (x3 / p) + x3 mod p)) - y) with (s * (x - x3 mod p) - y + (- (s * (x3 / p))) * p) by ring; rewrite Z.mod_add by lia; reflexivity).
  induction l as [|[[] s] l IH]; intros x y k x' y' k' OA Hk EA; cbn [climb]; cbv zeta; rewrite ?MD, ?ML; [intros E; injection E as <- <- <-; auto| |].
  - destruct (Z.eqb_spec ((s * (gx - x) - (gy - y)) mod p) 0) as [E1|]; [|discriminate]. destruct (Z.eqb_spec x gx) as [|E2]; [discriminate|]. cbn [andb negb].
    assert (S : w_sum p a (Aff x y) (Aff gx gy) (Aff ((s * s - x - gx) mod p) ((s * (x - (s * s - x - gx)) - y) mod p))).
    { apply ws_chord; [exact E2|]. apply NumTheory.mod_eq_divide; [lia|]. apply Z.mod_divide; [lia|exact E1]. }
    apply IH; [exact (spec_sum_on p Hp P3 a b Hn2 _ _ _ OA OG S)|lia|]. apply (spec_sum_iff p Hp P3 a b) in S; [|exact OA|exact OG]. rewrite S, ak_sp, EA by exact Hp. rewrite (ztimes_add _ _ _ _ _ WG), (ztimes_1 _ _ _ _ _ WG) by exact Og. reflexivity.
  - destruct (Z.eqb_spec ((s * (2 * y) - (3 * x * x + a)) mod p) 0) as [E1|]; [|discriminate]. destruct (Z.eqb_spec ((y + y) mod p) 0) as [|E2]; [discriminate|]. cbn [andb negb].
    assert (S : w_sum p a (Aff x y) (Aff x y) (Aff ((s * s - x - x) mod p) ((s * (x - (s * s - x - x)) - y) mod p))).
    { apply ws_tangent; [unfold cong; rewrite Z.mod_0_l by lia; exact E2|]. apply NumTheory.mod_eq_divide; [lia|]. apply Z.mod_divide; [lia|exact E1]. }
    apply IH; [exact (spec_sum_on p Hp P3 a b Hn2 _ _ _ OA OA S)|lia|]. apply (spec_sum_iff p Hp P3 a b) in S; [|exact OA|exact OA]. rewrite S, ak_sp, EA by exact Hp.
    replace (2 * k) with (k + k) by ring. rewrite (ztimes_add _ _ _ _ _ WG) by exact Og. reflexivity.
Qed.
Theorem order_ok l n : order_check md a gx gy l n = true -> w_times p a (Aff gx gy) (Z.to_nat n) Inf.
Proof.
  unfold order_check. destruct (climb md a gx gy l gx gy 1) as [[[x y] k]|] eqn:E; [|discriminate]. rewrite MD, !andb_true_iff, !Z.eqb_eq. intros [[-> E2] E3].
  destruct (climb_ok l gx gy 1 gx y k OG ltac:(lia)) as [O1 [K1 K2]]; [symmetry; apply (ztimes_1 _ _ _ _ _ WG); exact Og|exact E|].
  apply (w_times_iff r Hw Hp Hn2); [exact OG|]. rewrite <- ztimes_nat by lia. rewrite <- E3, (ztimes_add _ _ _ _ _ WG), (ztimes_1 _ _ _ _ _ WG), <- K2 by exact Og.
  apply (spec_sum_iff p Hp P3 a b); [exact O1|exact OG|]. apply ws_opposite. unfold cong. rewrite E2. symmetry. apply Z.mod_0_l. lia.
Qed.
End Sound.
