(** Certificates for the field moduli and group orders of the ROMs (generated by /verif/tools/genprimes.py from factorisations of N-1). *)
From Verif Require Import Proof.NumTheory Proof.Pocklington.
From Coq Require Import ZArith Znumtheory List.
Import ListNotations.
Open Scope Z_scope.

Definition cert_bls381_order : list cert := [(2653753, 2, [(110573, 1)]);
  (63690073, 2, [(2653753, 1)]);
  (254760293, 2, [(63690073, 1)]);
  (609743, 2, [(449, 1); (97, 1)]);
  (52437899, 2, [(609743, 1)]);
  (52435875175126190479447740508185965837690552500527637822603658699938581184513, 7, [(254760293, 2); (52437899, 1); (125527, 1); (2, 32)])].
Definition bls381_order : Z := 52435875175126190479447740508185965837690552500527637822603658699938581184513.
Theorem prime_bls381_order : prime bls381_order.
Proof. apply (chain_prime cert_bls381_order); [vm_cast_no_check (eq_refl true)|]. cbn [map cert_bls381_order fst In]. unfold bls381_order. tauto. Qed.

