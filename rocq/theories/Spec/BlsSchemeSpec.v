(** What the BLS schemes assume of their two groups and of the pairing.  A group of order n with a fixed generator is described by
    exponents: [rep P k] says that the object P stands for the k-th multiple of the generator. *)
From Verif Require Import Base.Word Spec.Bytes Spec.BigSpec Model.Big Model.Roms Model.HashToCurve Model.BlsScheme.

Definition cg (n a b : Z) : Prop := a mod n = b mod n.

(** [size] is the length of a serialised element *)
Record grp_ok (c : cfg) (n : Z) (size : nat) (G : grp) (rep : obj G -> Z -> Prop) : Prop := {
  rep_cg : forall P k k', rep P k -> cg n k k' -> rep P k';
  rep_fun : forall P k k', rep P k -> rep P k' -> cg n k k';
  gen_ok : exists g, g_gen G = Some g /\ rep g 1;
  mul_ok : forall P k s, rep P k -> big_wf c s -> bval c s < n -> exists Q, g_mul G P s = Some Q /\ rep Q (k * bval c s);
  add_ok : forall P Q k l, rep P k -> rep Q l -> exists R, g_add G P Q = Some R /\ rep R (k + l);
  neg_ok : forall P k, rep P k -> exists Q, g_neg G P = Some Q /\ rep Q (- k);
  (* serialisation: total on the group, fixed length, and read back as the same element *)
  ser_ok : forall P k, rep P k -> exists b Q, g_ser G P = Some b /\ length b = size /\ bytes b /\ g_deser G b = Some (Ok Q) /\ rep Q k;
  (* every byte string is refused or decoded, and the subgroup check tells whether the decoded point is in the group *)
  deser_ok : forall b, bytes b -> (exists e, g_deser G b = Some (Err e)) \/ (exists P ok, g_deser G b = Some (Ok P) /\ g_check G P = Some ok /\ (ok = true <-> exists k, rep P k))
}.
(** the product of the pairings of all pairs is one exactly when the exponents sum to 0 *)
Definition pairs_ok {K S : grp} (n : Z) (repK : obj K -> Z -> Prop) (repS : obj S -> Z -> Prop) (pairs : list (obj K * obj S) -> option bool) : Prop :=
  forall l es, Forall2 (fun q e => repK (fst q) (fst e) /\ repS (snd q) (snd e)) l es ->
    pairs l = Some (fold_right (fun e s => fst e * snd e + s) 0 es mod n =? 0).
(** hash_to_curve succeeds on this message and lands on the h-th multiple of the generator *)
Definition hashes (G : grp) (rep : obj G -> Z -> Prop) (msg dst : list Z) (h : Z) : Prop := exists P, g_hash G msg dst = Some P /\ rep P h.
(** a byte string denotes an element of the group *)
Definition denotes (G : grp) (rep : obj G -> Z -> Prop) (b : list Z) (k : Z) : Prop := exists P, g_deser G b = Some (Ok P) /\ rep P k.
