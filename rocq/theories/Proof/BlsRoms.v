(** The two bls381 ROMs. *)
From Verif Require Import Base.Word Model.Big Model.Roms Model.Fp Spec.BigSpec Spec.RomSpec Spec.FpSpec Proof.RomCheck Proof.CurveFacts Proof.Primes.
Definition bls_roms : list rom := [rom_bls381_64; rom_bls381_32].
Lemma bls_fp_ok r : In r bls_roms -> fp_ok r.
Proof.
  assert (G : forall r, checkb r = true -> fp_okb r = true -> fp_ok r) by (intros x H1 H2; split; [apply checkb_ok; exact H1|exact H2]).
  intros [<-|[<-|[]]]; apply G; vm_compute; reflexivity.
Qed.
Lemma bls_ns r : In r bls_roms -> special r = false. Proof. intros [<-|[<-|[]]]; reflexivity. Qed.
Lemma bls_mb r : In r bls_roms -> MODBYTES (r_cfg r) = 48. Proof. intros [<-|[<-|[]]]; reflexivity. Qed.
Lemma bls_p r : In r bls_roms -> pmod r = bls381_p. Proof. intros [<-|[<-|[]]]; [exact p_bls381_64|exact p_bls381_32]. Qed.
