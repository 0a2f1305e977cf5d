(** Boolean checks of the field conditions for concrete ROMs. *)
From Verif Require Import Base.Word Model.Big Model.Roms Model.Fp Spec.BigSpec Spec.RomSpec Spec.FpSpec Spec.FpProg Spec.Bytes
  Proof.BigVal Proof.BigMod Proof.BigInv2m Proof.NumTheory Proof.FpBase Proof.FpRed Proof.FpOps Proof.FpPow Proof.FpExp Proof.FpSqrt Proof.RomCheck Proof.BigShift Proof.BigMonty Proof.BigMul.
From Coq Require Import Psatz Znumtheory Zpow_facts.

Definition fpow_okb (r : rom) : bool :=
  if negb (special r) then true else match fpow_exp r with Some e => e =? (if r_MOD8 r =? 5 then (pmod r - 5) / 8 else (pmod r - 3) / 4) | None => false end.
Lemma fpow_okb_ok r : fpow_okb r = true -> fpow_ok r.
Proof. unfold fpow_okb, fpow_ok. intros H Hs. rewrite Hs in H. cbn [negb] in H. destruct (fpow_exp r) as [e|]; [|discriminate]. apply Z.eqb_eq in H. congruence. Qed.
Definition listb (a b : list Z) : bool := Nat.eqb (length a) (length b) && forallb (fun q => fst q =? snd q) (combine a b).
Lemma listb_ok a : forall b, listb a b = true -> a = b.
Proof.
  unfold listb. induction a as [|x a IH]; intros [|y b] H; cbn in H; try discriminate; [reflexivity|].
  rewrite !andb_true_iff in H. destruct H as [H1 [H2 H3]]. apply Z.eqb_eq in H2. subst y. f_equal. apply IH. rewrite andb_true_iff. auto.
Qed.
(* 2^e modulo 2^k - c by folding, much cheaper in the kernel than Zpow_mod *)
Definition pmfold (k c x : Z) : Z := Z.land x (Z.ones k) + c * Z.shiftr x k.
Definition pmred (k c x : Z) : Z := pmfold k c (pmfold k c x).
Fixpoint pmpow (k c b : Z) (e : positive) : Z :=
  match e with
  | xH => b
  | xO q => let y := pmpow k c b q in pmred k c (y * y)
  | xI q => let y := pmpow k c b q in b * pmred k c (y * y)
  end.
Lemma pmfold_ok k c x : 0 <= k -> 0 < 2 ^ k - c -> pmfold k c x mod (2 ^ k - c) = x mod (2 ^ k - c).
Proof.
  intros Hk Hp. unfold pmfold. rewrite Z.land_ones, Z.shiftr_div_pow2 by assumption. pose proof (Z.pow_pos_nonneg 2 k ltac:(lia) Hk) as H2.
  rewrite (Z.div_mod x (2 ^ k)) at 3 by lia. set (q := x / 2 ^ k). set (m := x mod 2 ^ k).
  replace (2 ^ k * q + m) with (m + c * q + q * (2 ^ k - c)) by ring. symmetry. apply Z.mod_add. lia.
Qed.
Lemma pmpow_ok k c b e : 0 <= k -> 0 < 2 ^ k - c -> pmpow k c b e mod (2 ^ k - c) = b ^ (Z.pos e) mod (2 ^ k - c).
Proof.
  intros Hk Hp. set (m := 2 ^ k - c) in *.
  assert (R : forall x, pmred k c x mod m = x mod m). { intros x. unfold pmred, m. rewrite !pmfold_ok by assumption. reflexivity. }
  induction e as [q IH|q IH|]; cbn [pmpow]; cbv zeta.
  - set (y := pmpow k c b q) in *. rewrite (Z.mul_mod b) by lia. rewrite R. rewrite (Z.mul_mod y), IH by lia.
    rewrite <- (Z.mul_mod (b ^ Z.pos q)), <- Z.mul_mod by lia.
    replace (Z.pos q~1) with (1 + (Z.pos q + Z.pos q)) by lia. rewrite !Z.pow_add_r, Z.pow_1_r by lia. reflexivity.
  - set (y := pmpow k c b q) in *. rewrite R. rewrite (Z.mul_mod y), IH, <- Z.mul_mod by lia. replace (Z.pos q~0) with (Z.pos q + Z.pos q) by lia. rewrite Z.pow_add_r by lia. reflexivity.
  - rewrite Z.pow_1_r. reflexivity.
Qed.
Definition sqrt_okb (r : rom) : bool :=
  let c := r_cfg r in let p := pmod r in
  if negb (r_MOD8 r =? 5) then true else
  (special r && (p =? 2 ^ r_MODBITS r - r_MCONST r) && (let s := pmpow (r_MODBITS r) (r_MCONST r) 2 (Z.to_pos ((p - 1) / 4)) mod p in let X := 2 ^ BASEBITS c in
     ((s * s) mod p =? p - 1) && negb (s mod X =? 0) && negb ((p - s) mod X =? 0) && negb ((p + s) mod X =? 0) && negb ((2 * p - s) mod X =? 0))
   && forallb (fun a => forallb (fun i =>
        match (ix <- dec c i 1 ;; m <- fp_mul r (mkfp a 2) (mkfp ix 2) ;; fp_reduce r m) with
        | Some f => listb (fx f) (big_new c) && (fxes f =? 1) | None => false end) [big_new c; r_MODULUS r]) [big_new c; r_MODULUS r]).
Lemma sqrt_okb_ok r : fp_ok r -> sqrt_okb r = true -> sqrt_ok5 r.
Proof.
  intros Hf H H5. unfold sqrt_okb in H. rewrite (proj2 (Z.eqb_eq _ _) H5) in H. cbn [negb] in H. apply andb_true_iff in H. destruct H as [H Hz].
  apply andb_true_iff in H. destruct H as [Hs H]. apply andb_true_iff in Hs. destruct Hs as [Hs Hpm]. apply Z.eqb_eq in Hpm. split; [exact Hs|]. pose proof (p_gt100 r Hf) as Hp.
  assert (Es : pmpow (r_MODBITS r) (r_MCONST r) 2 (Z.to_pos ((pmod r - 1) / 4)) mod pmod r = 2 ^ ((pmod r - 1) / 4) mod pmod r).
  { assert (H4 : 4 / 4 <= (pmod r - 1) / 4) by (apply Z.div_le_mono; lia). change (4 / 4) with 1 in H4.
    assert (Hm : 0 <= r_MODBITS r) by (pose proof (ff_200 r (fp_ok_facts r Hf)); lia).
    rewrite Hpm at 2. rewrite (pmpow_ok (r_MODBITS r) (r_MCONST r) 2 (Z.to_pos ((pmod r - 1) / 4)) Hm ltac:(lia)). rewrite Z2Pos.id by lia. rewrite <- Hpm. reflexivity. }
  rewrite Es in H. clear Es. set (s := 2 ^ ((pmod r - 1) / 4) mod pmod r) in *. exists s.
  split; [apply Z.mod_pos_bound; lia|]. split; [reflexivity|].
  cbv zeta in H. rewrite !andb_true_iff, !negb_true_iff, !Z.eqb_neq, Z.eqb_eq in H. destruct H as [[[[A1 A2] A3] A4] A5].
  repeat (split; [assumption|]). intros a i Ha Hi. rewrite forallb_forall in Hz. specialize (Hz a Ha). cbv beta in Hz. rewrite forallb_forall in Hz. specialize (Hz i Hi). cbv beta in Hz.
  destruct (ix <- dec (r_cfg r) i 1 ;; m <- fp_mul r (mkfp a 2) (mkfp ix 2) ;; fp_reduce r m) as [f|]; [|discriminate].
  apply andb_true_iff in Hz. destruct Hz as [Z1 Z2]. apply listb_ok in Z1. apply Z.eqb_eq in Z2. destruct f as [x e]. cbn [fx fxes] in *. subst. reflexivity.
Qed.
