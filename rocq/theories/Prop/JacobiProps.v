(** C10: Big::jacobi (big.rs:729-773) against the textbook definition of the symbol. *)
From Verif Require Import Base.Word Model.Big Spec.BigSpec Spec.JacobiSpec Proof.BigVal Proof.BigMod Proof.NumTheory Proof.Reciprocity Proof.BigJacobi.
From Coq Require Import Znumtheory.

(** for every factorisation of the modulus into odd primes, the result is the product of the
    Legendre symbols *)
Theorem C10_jacobi : forall c x n ps, cfg_ok c -> big_wf c x -> big_wf c n ->
  Forall (fun p => prime p /\ Z.odd p = true) ps -> product ps = bval c n -> 1 < bval c n ->
  exists s, jacobi c x n = Some s /\ is_jacobi (bval c x) ps s.
Proof.
  intros c x n ps Hok Hx Hn Hps E Hn1. destruct (jac_is_jacobi (bval c x) ps Hps) as [H1 [H2 H3]]. rewrite E in *.
  exists (jac (bval c x) (bval c n)). split; [|exact H1]. exact (jacobi_spec c Hok x n Hx Hn Hn1 H3).
Qed.
Print Assumptions C10_jacobi.
(** every odd modulus above 1 has such a factorisation *)
Theorem C10_jacobi_total : forall c x n, cfg_ok c -> big_wf c x -> big_wf c n -> 1 < bval c n -> Z.odd (bval c n) = true ->
  exists ps s, Forall (fun p => prime p /\ Z.odd p = true) ps /\ product ps = bval c n
    /\ jacobi c x n = Some s /\ is_jacobi (bval c x) ps s.
Proof.
  intros c x n Hok Hx Hn Hn1 Ho. destruct (odd_factor (bval c n) ltac:(apply Z.lt_trans with 1; [reflexivity|exact Hn1]) Ho) as [ps [P1 P2]].
  destruct (C10_jacobi c x n ps Hok Hx Hn P1 P2 Hn1) as [s [S1 S2]]. exists ps, s. auto.
Qed.
Print Assumptions C10_jacobi_total.
(** in particular, over a prime it decides quadratic residuosity *)
Theorem C10_legendre : forall c x p, cfg_ok c -> big_wf c x -> big_wf c p -> prime (bval c p) -> Z.odd (bval c p) = true ->
  exists s, jacobi c x p = Some s /\ is_legendre (bval c p) (bval c x) s.
Proof.
  intros c x p Hok Hx Hp Pp Ho. exists (jac (bval c x) (bval c p)). split; [|apply jac_is_legendre; assumption].
  apply (jacobi_spec c Hok x p Hx Hp); [|exact Ho]. pose proof (prime_ge_2 _ Pp) as H. unfold bval in H. lia.
Qed.
Print Assumptions C10_legendre.
(** zero exactly when a factor is shared *)
Theorem C10_zero : forall c x n, cfg_ok c -> big_wf c x -> big_wf c n -> 1 < bval c n -> Z.odd (bval c n) = true ->
  (jacobi c x n = Some 0 <-> Z.gcd (bval c x) (bval c n) <> 1).
Proof.
  intros c x n Hok Hx Hn Hn1 Ho. rewrite (jacobi_spec c Hok x n Hx Hn Hn1 Ho : jacobi c x n = Some (jac (bval c x) (bval c n))).
  rewrite <- jac_zero_iff. split; [intros E; injection E; auto|intros ->; reflexivity].
Qed.
Print Assumptions C10_zero.
(** even moduli and moduli 0 and 1 are answered 0 *)
Theorem C10_degenerate : forall c x n, cfg_ok c -> big_wf c n -> (Z.even (bval c n) = true \/ bval c n <= 1) -> jacobi c x n = Some 0.
Proof.
  intros c x n Hok Hn H. unfold jacobi. rewrite (parity_wf c Hok n Hn). change (val (BASEBITS c) n) with (bval c n).
  destruct (one_wf c Hok) as [O1 O2]. destruct H as [H|H].
  - rewrite Zmod_even, H. reflexivity.
  - replace (comp n (big_new_int c 1) <=? 0) with true; [rewrite orb_true_r; reflexivity|].
    pose proof (cf_B c (cfg_ok_facts c Hok)).
    rewrite (comp_spec c) by (first [apply canon_nrm; first [exact (proj2 Hn)|exact (proj2 O1)]|rewrite (proj1 Hn), (proj1 O1); reflexivity|lia]).
    rewrite O2. unfold bval in H. destruct (Z.compare_spec (val (BASEBITS c) n) 1); try lia; reflexivity.
Qed.
Print Assumptions C10_degenerate.
Example C10_witness : let c := {| CHUNK := 32; BASEBITS := 28; MODBYTES := 8 |} in
  cfg_ok c /\ jacobi c [19; 0; 0] [45; 0; 0] = Some 1 /\ jacobi c [8; 0; 0] [21; 0; 0] = Some (-1) /\ jacobi c [30; 0; 0] [45; 0; 0] = Some 0
  /\ jacobi c [30; 1; 0] [46; 0; 0] = Some 0.
Proof. vm_compute. auto. Qed.
