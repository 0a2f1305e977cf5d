(** BLS12-381 G1: x^2 G = (beta gx, -gy), by checking precomputed slopes. *)
From Verif Require Import Base.Word Base.Arr Model.Big Model.Roms Spec.BigSpec Spec.RomSpec Spec.CurveSpec Proof.Primes Proof.OrderCert Proof.SlopesBls.
From Coq Require Import ZArith List Bool.
Open Scope Z_scope.
Definition g1_gx : Z := 0x17f1d3a73197d7942695638c4fa9ac0fc3688c4f9774b905a14e3a3f171bac586c55e83ff97a1aeffb3af00adb22c6bb.
Definition g1_gy : Z := 0x08b3f481e3aaa0f1a09e30ed741d8ae4fcf5e095d5d00af600db18cb2c04b3edd03cc744a2888ae40caa232946c5e7e1.
Definition g1_beta : Z := 0x5f19672fdf76ce51ba69c6076a0f77eaddb3a93be6f89688de17d813620a00022e01fffffffefffe.
Definition g1_x2 : Z := 0xd201000000010000 * 0xd201000000010000.
Definition g1_md (v : Z) : Z := v mod bls381_p.
Definition lands (md : Z -> Z) (gx gy bt k2 : Z) (l : list (bool * Z)) : bool :=
  match climb md 0 gx gy l gx gy 1 with Some (x, y, k) => (x =? md (bt * gx)) && (y =? md (- gy)) && (k =? k2) | None => false end.
Lemma cert_x2 : lands g1_md g1_gx g1_gy g1_beta g1_x2 slopes_x2 = true.
Proof. vm_cast_no_check (eq_refl true). Qed.
Lemma lands_ok md gx gy bt k2 l : lands md gx gy bt k2 l = true -> climb md 0 gx gy l gx gy 1 = Some (md (bt * gx), md (- gy), k2).
Proof.
  unfold lands. destruct (climb md 0 gx gy l gx gy 1) as [[[x y] k]|]; [|discriminate]. rewrite !andb_true_iff, !Z.eqb_eq. intros [[-> ->] ->]. reflexivity.
Qed.
Lemma climb_x2 : climb g1_md 0 g1_gx g1_gy slopes_x2 g1_gx g1_gy 1 = Some (g1_md (g1_beta * g1_gx), g1_md (- g1_gy), g1_x2).
Proof. exact (lands_ok _ _ _ _ _ _ cert_x2). Qed.
