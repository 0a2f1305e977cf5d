(** hash_to_curve to BLS12-381 G1 by simplified SWU and the 11-isogeny, RFC 9380 sections 3, 6.6.3 and 8.8.1. *)
From Verif Require Import Base.Word Spec.Bytes Spec.Sha2Spec Spec.XmdSpec Spec.CurveSpec Spec.EcpSpec Spec.SswuSpec Spec.IsoSpec Proof.Primes.
(** iso_map of appendix E.2 (section 6.6.3: a point where a denominator vanishes goes to the identity) *)
Definition iso11 (x y : Z) : point :=
  if peval E2_x_den x mod bls381_p =? 0 then Inf
  else Aff ((peval E2_x_num x * inv0 bls381_p (peval E2_x_den x)) mod bls381_p) ((y * peval E2_y_num x * inv0 bls381_p (peval E2_y_den x)) mod bls381_p).
(** map_to_curve *)
Definition map_g1 (u : Z) : point := let xy := sswu bls381_p E11_A E11_B E11_Z u in iso11 (fst xy) (snd xy).
(** hash_to_curve of section 3 with m = 1, L = 64, SHA-256: Q is the result *)
Definition hash_g1 (msg dst : list Z) (Q : point) : Prop :=
  exists u0 u1 S, HTF_SHA2 SHA256 bls381_p 64 1 msg 2 dst = Some [[u0]; [u1]] /\ w_sum bls381_p 0 (map_g1 u0) (map_g1 u1) S /\ w_times bls381_p 0 S (Z.to_nat h_eff_G1) Q.
