(** Model of Big::randomnum and Big::random (src/big.rs:692-737) and of the elliptic curve protocols of src/ecdh.rs:397-760, over any ROM.
    [None] = panic or an endless loop; output slices are returned.  The results of the Rust functions are their isize codes. *)
From Verif Require Import Base.Word Base.Arr Model.Big Model.Roms Model.Fp Model.Ecp Model.Sha2 Model.Rand Model.Aes Model.Ecdh.

(* ecdh.rs:33-36 *)
Definition INVALID_PUBLIC_KEY : Z := -2.
Definition DH_ERROR : Z := -3.
Definition INVALID : Z := -4.

Section Proto.
Variable rm : rom.
Notation c := (r_cfg rm).
Variable bd : build.
Notation EFS := (Z.to_nat (MODBYTES c)).      (* ecdh.rs:38-39: EFS = EGS = MODBYTES *)

(* big.rs:694-712 / 719-735: n turns of the loop; j, r are the loop variables, shlf the shift by one *)
Fixpoint random_loop (shlf : list Z -> option (list Z)) (n : nat) (j : Z) (r : Z) (d : list Z) (rng : rnd) : option (list Z * rnd) :=
  match n with
  | O => Some (d, rng)
  | S n' =>
      q <- (if j =? 0 then getbyte bd rng else Some (Z.shiftr r 1, rng)) ;;
      let r := fst q in
      d <- shlf d ;;
      d <- add_low c d (Z.land r 1) ;;
      random_loop shlf n' (Z.land (j + 1) 7) r d (snd q)
  end.
(* big.rs:692-712 *)
Definition big_random (rng : rnd) : option (list Z * rnd) :=
  random_loop (fun m => shl c m 1) (8 * EFS) 0 0 (big_new c) rng.
(* big.rs:717-737 *)
Definition randomnum (q : list Z) (rng : rnd) : option (list Z * rnd) :=
  nb <- nbits c q ;;
  d <- random_loop (fun m => dshl c m 1) (Z.to_nat (2 * nb)) 0 0 (dbig_new c) rng ;;
  m <- dmod c (fst d) q ;;
  Some (m, snd d).

(* ecdh.rs:397-419; result code, s, w, generator *)
Definition key_pair_generate (rng : option rnd) (s w : list Z) : option (Z * list Z * list Z * option rnd) :=
  G <- ecp_generator rm ;;
  q <- (match rng with
        | Some x => t <- randomnum (r_ORDER rm) x ;; Some (fst t, Some (snd t))
        | None => sc <- frombytes c s ;; sc <- rmod c sc (r_ORDER rm) ;; Some (sc, None)
        end) ;;
  s <- tobytes c (fst q) s ;;
  WP <- ecp_mul rm G (fst q) ;;
  w <- ecp_tobytes rm WP w false ;;
  Some (0, s, w, snd q).

(* ecdh.rs:439-442: while k.parity() == 0 *)
Fixpoint strip_loop (fuel : nat) (k : list Z) (WP : ecp) : option (list Z * ecp) :=
  match fuel with
  | O => None
  | S f => if parity k =? 0 then k <- shr c k 1 ;; WP <- ecp_dbl rm WP ;; strip_loop f k WP else Some (k, WP)
  end.
(* ecdh.rs:422-454 *)
Definition public_key_validate (w : list Z) : option Z :=
  WP <- ecp_frombytes rm w ;;
  i <- ecp_is_infinity rm WP ;;
  if (i : bool) then Some INVALID_PUBLIC_KEY else
  nb <- nbits c (r_MODULUS rm) ;;
  k <- shl c (big_one c) ((nb + 4) / 2) ;;
  k <- add c k (r_MODULUS rm) ;;
  k <- div c k (r_ORDER rm) ;;
  q <- strip_loop (loop_fuel c k) k WP ;;
  WP <- (if isunity (fst q) then Some (snd q) else ecp_mul rm (snd q) (fst q)) ;;
  i <- ecp_is_infinity rm WP ;;
  Some (if (i : bool) then INVALID_PUBLIC_KEY else 0).

(* ecdh.rs:457-483; result code and z *)
Definition ecpsvdp_dh (s wd z : list Z) : option (Z * list Z) :=
  sc <- frombytes c s ;;
  W <- ecp_frombytes rm wd ;;
  i <- ecp_is_infinity rm W ;;
  if (i : bool) then Some (DH_ERROR, z) else
  sc <- rmod c sc (r_ORDER rm) ;;
  W <- ecp_mul rm W sc ;;
  i <- ecp_is_infinity rm W ;;
  if (i : bool) then Some (DH_ERROR, z) else
  x <- ecp_getx rm W ;;
  t <- tobytes c x (repeat 0 EFS) ;;
  z <- put z 0 t ;;
  Some (0, z).

(* ecdh.rs:510-536: while db.iszilch(); [fuel] bounds the number of turns *)
Fixpoint dsa_loop (fuel : nat) (G : ecp) (sc fb cb db : list Z) (rng : rnd) : option (list Z * list Z * rnd) :=
  if negb (iszilch db) then Some (cb, db, rng) else
  match fuel with
  | O => None
  | S f =>
      q <- randomnum (r_ORDER rm) rng ;;
      let u := fst q in
      q <- randomnum (r_ORDER rm) (snd q) ;;
      let w := fst q in
      V <- ecp_mul rm G u ;;
      vx <- ecp_getx rm V ;;
      cb <- rmod c vx (r_ORDER rm) ;;
      if iszilch cb then dsa_loop f G sc fb cb db (snd q) else
      u <- modmul c u w (r_ORDER rm) ;;
      u <- invmodp c u (r_ORDER rm) ;;
      db <- modmul c sc cb (r_ORDER rm) ;;
      db <- add c db fb ;;
      db <- modmul c db w (r_ORDER rm) ;;
      db <- modmul c u db (r_ORDER rm) ;;
      dsa_loop f G sc fb cb db (snd q)
  end.
(* ecdh.rs:486-546; result code, c, d, generator *)
Definition ecpsp_dsa (fuel sha : nat) (rng : rnd) (s f co dO : list Z) : option (Z * list Z * list Z * rnd) :=
  b <- hashit bd sha f 0 None EFS (repeat 0 EFS) ;;
  G <- ecp_generator rm ;;
  sc <- frombytes c s ;;
  fb <- frombytes c b ;;
  q <- dsa_loop fuel G sc fb (big_new c) (big_new c) rng ;;
  let '(cb, db, rng) := q in
  t <- tobytes c cb (repeat 0 EFS) ;;
  co <- put co 0 t ;;
  t <- tobytes c db t ;;
  dO <- put dO 0 t ;;
  Some (0, co, dO, rng).
(* ecdh.rs:549-596 *)
Definition ecpvp_dsa (sha : nat) (w f ci di : list Z) : option Z :=
  b <- hashit bd sha f 0 None EFS (repeat 0 EFS) ;;
  G <- ecp_generator rm ;;
  cb <- frombytes c ci ;;
  db <- frombytes c di ;;
  if iszilch cb || (0 <=? comp cb (r_ORDER rm)) || iszilch db || (0 <=? comp db (r_ORDER rm)) then Some INVALID else
  fb <- frombytes c b ;;
  db <- invmodp c db (r_ORDER rm) ;;
  fb <- modmul c fb db (r_ORDER rm) ;;
  h2 <- modmul c cb db (r_ORDER rm) ;;
  WP <- ecp_frombytes rm w ;;
  i <- ecp_is_infinity rm WP ;;
  if (i : bool) then Some DH_ERROR else
  P <- ecp_mul2 rm WP h2 G fb ;;
  i <- ecp_is_infinity rm P ;;
  if (i : bool) then Some INVALID else
  db <- ecp_getx rm P ;;
  db <- rmod c db (r_ORDER rm) ;;
  Some (if negb (comp db cb =? 0) then INVALID else 0).

(* ecdh.rs:620-635 / 693-708: the keys K1 || K2; aesk is ecp::AESKEY *)
Definition ecies_keys (aesk sha : nat) (p1 v z : list Z) : option (list Z) :=
  if (length v <? 2 * EFS + 1)%nat then None else
  kdf2 bd sha (firstn (2 * EFS + 1) v ++ z) (Some p1) (2 * aesk) (repeat 0 (2 * aesk)).
(* ecdh.rs:640-650 / 717-727: c || p2 || len(p2), the input of the MAC *)
Definition ecies_maced (cc p2 : list Z) : list Z := cc ++ p2 ++ inttobytes (Z.of_nat (length p2)) (repeat 0 8).
(* ecdh.rs:599-658; None inside Some is the function's None.  Returns ciphertext, v, t, generator *)
Definition ecies_encrypt (aesk sha : nat) (p1 p2 : list Z) (rng : rnd) (w m v t : list Z) : option (option (list Z) * list Z * list Z * option rnd) :=
  q <- key_pair_generate (Some rng) (repeat 0 EFS) v ;;
  let '(_, u, v, rng) := q in
  zz <- ecpsvdp_dh u w (repeat 0 EFS) ;;
  if negb (fst zz =? 0) then Some (None, v, t, rng) else
  k <- ecies_keys aesk sha p1 v (snd zz) ;;
  cc <- cbc_iv0_encrypt bd (firstn aesk k) m ;;
  h <- hmac bd sha (ecies_maced cc p2) (skipn aesk k) (length t) t ;;
  Some (Some cc, v, snd h, rng).
(* ecdh.rs:674-738 *)
Definition ecies_decrypt (aesk sha : nat) (p1 p2 v cc t u : list Z) : option (option (list Z)) :=
  tag <- put (repeat 0 32) 0 t ;;
  zz <- ecpsvdp_dh u v (repeat 0 EFS) ;;
  if negb (fst zz =? 0) then Some None else
  k <- ecies_keys aesk sha p1 v (snd zz) ;;
  m <- cbc_iv0_decrypt bd (firstn aesk k) cc ;;
  match m with
  | None => Some None
  | Some m =>
      h <- hmac bd sha (ecies_maced cc p2) (skipn aesk k) (length t) tag ;;
      ok <- ncomp t (snd h) (length t) ;;
      Some (if (ok : bool) then Some m else None)
  end.
End Proto.
