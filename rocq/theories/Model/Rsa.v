(** Model of the encoding functions of src/rsa.rs: hashit, mgf1, pkcs15, oaep_encode, oaep_decode.
    [rfs] is the constant RFS = MODBYTES * FFLEN and [flen] is FF_BITS / 8.  [None] = panic. *)
From Verif Require Import Base.Word Base.Arr Model.Sha2 Model.Rand Model.Ecdh.

(* rsa.rs:65-106; n < 0 means no counter.  An unknown sha leaves w alone *)
Definition rhash (bd : build) (sha : nat) (a : option (list Z)) (n : Z) (w : list Z) : option (list Z) :=
  match hash_for sha with
  | Some C =>
      s <- match a with Some x => process_array C bd (h_new C) x | None => Some (h_new C) end ;;
      s <- (if 0 <=? n then process_num C bd s (wrap 32 n) else Some s) ;;
      d <- Sha2.hash C bd s ;;
      put w 0 (firstn sha (fst d))
  | None => Some w
  end.
(* rsa.rs:188-204: the loop of mgf1; b has 64 bytes *)
Fixpoint mgf_loop (bd : build) (sha : nat) (z : list Z) (olen : nat) (counters : list nat) (j : nat) (k : list Z) : option (list Z) :=
  match counters with
  | [] => Some k
  | c :: t =>
      b <- rhash bd sha (Some z) (Z.of_nat c) (repeat 0 64) ;;
      let n := if (olen <? j + sha)%nat then (olen mod sha)%nat else sha in
      if (64 <? n)%nat then None else
      k <- put k j (firstn n b) ;;
      mgf_loop bd sha z olen t (j + n) k
  end.
(* rsa.rs:174-205; k is cleared first; sha = 0 divides by zero *)
Definition mgf1 (bd : build) (sha : nat) (z : list Z) (olen : nat) (k : list Z) : option (list Z) :=
  if Nat.eqb sha 0 then None else mgf_loop bd sha z olen (seq 0 (cthreshold sha olen)) 0 (repeat 0 (length k)).

(* rsa.rs:208-219 *)
Definition SHA256ID : list Z := [0x30; 0x31; 0x30; 0x0d; 0x06; 0x09; 0x60; 0x86; 0x48; 0x01; 0x65; 0x03; 0x04; 0x02; 0x01; 0x05; 0x00; 0x04; 0x20].
Definition SHA384ID : list Z := [0x30; 0x41; 0x30; 0x0d; 0x06; 0x09; 0x60; 0x86; 0x48; 0x01; 0x65; 0x03; 0x04; 0x02; 0x02; 0x05; 0x00; 0x04; 0x30].
Definition SHA512ID : list Z := [0x30; 0x51; 0x30; 0x0d; 0x06; 0x09; 0x60; 0x86; 0x48; 0x01; 0x65; 0x03; 0x04; 0x02; 0x03; 0x05; 0x00; 0x04; 0x40].
Definition sha_id (sha : nat) : list Z :=
  if Nat.eqb sha 32 then SHA256ID else if Nat.eqb sha 48 then SHA384ID else if Nat.eqb sha 64 then SHA512ID else [].
(* rsa.rs:221-269; returns (success, w) *)
Definition pkcs15 (bd : build) (flen sha : nat) (m w : list Z) : option (bool * list Z) :=
  if (flen <? 19 + sha + 10)%nat then Some (false, w) else
  b <- rhash bd sha (Some m) (-1) (repeat 0 64) ;;
  if (64 <? sha)%nat then None else
  w <- put (repeat 0 (length w)) 0 ([0; 1] ++ repeat 0xff (flen - 19 - sha - 3) ++ [0] ++ sha_id sha ++ firstn sha b) ;;
  Some (true, w).

(* rsa.rs:272-327; returns (success, f, generator).  If the modulus is too short for two digests the subtraction
   underflows (debug) or the fill loop runs out of f (release): a panic either way. *)
Definition oaep_encode (bd : build) (rfs sha : nat) (m : list Z) (rng : rnd) (p : option (list Z)) (f : list Z) : option (bool * list Z * rnd) :=
  let olen := (rfs - 1)%nat in
  if (olen <? sha + sha + 1)%nat then None else
  if (olen - sha - sha - 1 <? length m)%nat then Some (false, f, rng) else
  f <- rhash bd sha p (-1) f ;;
  f <- put f sha (repeat 0 (olen - length m - sha - sha - 1) ++ [1] ++ m) ;;
  if (64 <? sha)%nat then None else
  q <- getbytes bd sha rng ;;
  let '(sd, rng) := q in
  dbmask <- mgf1 bd sha (sd ++ repeat 0 (64 - sha)) (olen - sha) (repeat 0 rfs) ;;
  let db := xorl (firstn (olen - sha) dbmask) (firstn (olen - sha) f) in
  f <- mgf1 bd sha db sha f ;;
  let f := xorl (firstn sha f) sd ++ skipn sha f in
  f <- put f sha db ;;
  if (length f <? rfs)%nat then None else
  Some (true, 0 :: firstn (rfs - 1) f ++ skipn rfs f, rng).

(* rsa.rs:388-397: index of the first nonzero byte *)
Fixpoint first_nonzero (l : list Z) (k : nat) : option nat :=
  match l with [] => None | x :: t => if x =? 0 then first_nonzero t (S k) else Some k end.
(* rsa.rs:330-418; returns (length, f).  A short f (lines 344-352) is indexed out of range. *)
Definition oaep_decode (bd : build) (rfs sha : nat) (p : option (list Z)) (f : list Z) : option (nat * list Z) :=
  let olen := (rfs - 1)%nat in
  if (olen <? sha + sha + 1)%nat then Some (0%nat, f) else
  if (length f <? rfs)%nat then None else
  chash <- rhash bd sha p (-1) (repeat 0 64) ;;
  let x := at_ f 0 in
  let mdb := firstn (olen - sha) (skipn (sha + 1) f) in
  seed <- mgf1 bd sha mdb sha (repeat 0 64) ;;
  let seed := xorl (firstn sha seed) (firstn sha (skipn 1 f)) ++ skipn sha seed in
  f <- mgf1 bd sha seed (olen - sha) f ;;
  let db := xorl mdb (firstn (olen - sha) f) in
  let comp := forallb (fun i => at_ chash i =? at_ db i) (seq 0 sha) in
  let rest := firstn (olen - sha - sha) (skipn sha db) in
  match first_nonzero rest 0 with
  | None => Some (0%nat, f)
  | Some k =>
      if negb comp || negb (x =? 0) || negb (at_ rest k =? 1) then Some (0%nat, f)
      else f <- put f 0 (skipn (k + 1) rest) ;; Some ((olen - sha - sha - k - 1)%nat, f)
  end.
