(** mpin.rs: the parts of M-Pin that stay in G1: the identity hash, PIN extraction and restoration, recombination, secrets. *)
From Verif Require Import Base.Word Base.Arr Model.Big Model.Roms Model.Fp Model.Ecp Model.Sha2 Model.Ecdh Model.Rand.

(** mpin.rs:28-46 *)
Definition INVALID_POINT : Z := -14.
Definition MAXPIN : Z := 10000.
Definition PBLEN : Z := 14.

Section Mpin.
Variable r : rom.
Variable bd : build.
Notation c := (r_cfg r).
Notation rm := (Z.to_nat (MODBYTES c)).

(** mpin.rs:119-178 hashit.  The three [if sha ==] blocks are [hash_for] (sha is the digest length, so [r] holds exactly the digest);
    w must have at least MODBYTES entries, otherwise the indexing panics.  The result is (didit, w). *)
Definition mpin_hashit (sha : nat) (n : Z) (id w : list Z) : option (bool * list Z) :=
  match hash_for sha with
  | None => Some (false, w)
  | Some C =>
      s <- (if 0 <? n then process_num C bd (h_new C) (wrap 32 n) else Some (h_new C)) ;;
      s <- process_array C bd s id ;;
      d <- Sha2.hash C bd s ;;
      let hs := fst d in
      w <- put_from w 0 (if (rm <? sha)%nat then firstn rm hs else repeat 0 (rm - sha) ++ firstn sha hs) ;;
      Some (true, w)
  end.
(** mpin.rs:228-230 hash_id *)
Definition mpin_hash_id (sha : nat) (id w : list Z) : option (bool * list Z) := mpin_hashit sha 0 id w.

Variable fuel : nat.   (* bound on the trial loop of ECP::mapit *)
(** mpin.rs:416-440 and 443-466: the common part; [add] is false for extract_factor (P.sub) and true for restore_factor (P.add).
    factor and facbits are i32; the loop of pinmul runs facbits times (never when it is negative). *)
Definition shift_factor (add : bool) (sha : nat) (cid : list Z) (factor facbits : Z) (token : list Z) : option (Z * list Z) :=
  P <- ecp_frombytes r token ;;
  i <- ecp_is_infinity r P ;;
  if (i : bool) then Some (INVALID_POINT, token) else
  h <- mpin_hashit sha 0 cid (repeat 0 rm) ;;
  R <- ecp_mapit r fuel (snd h) ;;
  R <- ecp_pinmul r R factor (Z.to_nat facbits) ;;
  P <- (if add then ecp_add r P R else ecp_sub r P R) ;;
  token <- ecp_tobytes r P token false ;;
  Some (0, token).
Definition extract_factor := shift_factor false.
Definition restore_factor := shift_factor true.
(** mpin.rs:409-413 extract_pin; [%] on i32 is the remainder with the sign of the dividend *)
Definition extract_pin (sha : nat) (cid : list Z) (pin : Z) (token : list Z) : option (Z * list Z) :=
  extract_factor sha cid (Z.rem pin MAXPIN) PBLEN token.
(** mpin.rs:318-330 recombine_g1: both decodings come first; the test is short-circuiting *)
Definition recombine_g1 (r1 r2 out : list Z) : option (Z * list Z) :=
  P <- ecp_frombytes r r1 ;;
  Q <- ecp_frombytes r r2 ;;
  i <- ecp_is_infinity r P ;;
  j <- (if (i : bool) then Some true else ecp_is_infinity r Q) ;;
  if (j : bool) then Some (INVALID_POINT, out) else
  P <- ecp_add r P Q ;;
  out <- ecp_tobytes r P out false ;;
  Some (0, out).
End Mpin.
