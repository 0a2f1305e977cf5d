(** Vocabulary for the multi-Big integers of ff.rs and for RSA: the integer an FF denotes. *)
From Verif Require Export Model.Ff Spec.BigSpec.

(** one Big holds 8*MODBYTES bits *)
Definition bigR (c : cfg) : Z := 2 ^ (8 * MODBYTES c).
(** the integer denoted by an FF *)
Fixpoint fval (c : cfg) (f : ff) : Z :=
  match f with [] => 0 | x :: t => bval c x + bigR c * fval c t end.
(** a fully reduced FF of n Bigs: every Big has digits only and is below 2^(8*MODBYTES) *)
Definition ff_wf (c : cfg) (n : nat) (f : ff) : Prop :=
  length f = n /\ Forall (fun x => big_wf c x /\ bval c x < bigR c) f.
(** every Big has a few spare bits above 8*MODBYTES: true for all RSA ROMs (Prop/RsaProps.v) *)
Definition ff_okb (c : cfg) : bool := cfg_okb c && (5 <=? FT c) && (FT c + 8 <=? BASEBITS c).
Definition ff_ok (c : cfg) : Prop := ff_okb c = true.
