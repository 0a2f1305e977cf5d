(** Model of src/nhs.rs (NewHope-Simple key exchange).
    i32 additions, subtractions and multiplications are [chk 32], u64 ones [chku 64]: [None] is the panic of a debug build, and where the model
    returns [Some] the release build computes the same.  Arrays are lists; every polynomial array in the source has DEGREE elements and every
    byte array the length named at its declaration, so the index checks of the internal functions cannot fail and are left out; those of the
    caller's buffers are modelled in the three API functions. *)
From Verif Require Import Base.Word Base.Arr Model.Sha2 Model.Sha3 Model.Rand Model.NhsTables.

(** nhs.rs:26-37 *)
Definition PRIME : Z := 0x3001.
Definition LGN : nat := 10.
Definition ND : Z := 0xF7002FFF.
Definition ONE : Z := 0x2AC8.
Definition R2MODP : Z := 0x1620.
Definition DEGREE : nat := 1024.
Definition INV : Z := 0xeab.
Definition INVPR : Z := 0x2c2a.

Definition add32 (a b : Z) : option Z := chk 32 (a + b).
Definition sub32 (a b : Z) : option Z := chk 32 (a - b).
Definition mul32 (a b : Z) : option Z := chk 32 (a * b).
Definition mul64 (a b : Z) : option Z := chku 64 (a * b).
Definition add64 (a b : Z) : option Z := chku 64 (a + b).
(** x as u64 for an i32 x; x >> 31 for an i32 x *)
Definition as_u64 (x : Z) : Z := wrapu 64 x.
Definition sar31 (x : Z) : Z := Z.shiftr x 31.
(** a loop over an array that may panic *)
Fixpoint map_opt {A B : Type} (f : A -> option B) (l : list A) : option (list B) :=
  match l with [] => Some [] | a :: l => b <- f a ;; r <- map_opt f l ;; Some (b :: r) end.
Fixpoint map2_opt (f : Z -> Z -> option Z) (a b : list Z) : option (list Z) :=
  match a, b with x :: a, y :: b => z <- f x y ;; r <- map2_opt f a b ;; Some (z :: r) | _, _ => Some [] end.

(** nhs.rs:214-216; / truncates *)
Definition round (a b : Z) : option Z := s <- add32 a (Z.quot b 2) ;; Some (Z.quot s b).
(** nhs.rs:219-222 *)
Definition nabs (x : Z) : option Z := let mask := sar31 x in s <- add32 x mask ;; Some (Z.lxor s mask).
(** nhs.rs:226-229 *)
Definition redc (t : Z) : option Z :=
  let m := wrapu 32 (wrapu 32 t * ND) in
  a <- mul64 m PRIME ;; a <- add64 a t ;; Some (wrap 32 (Z.shiftr a 32)).
(** nhs.rs:231-233 *)
Definition nres (x : Z) : option Z := t <- mul64 (as_u64 x) R2MODP ;; redc t.
(** nhs.rs:235-237 *)
Definition modmul (a b : Z) : option Z := t <- mul64 (as_u64 a) (as_u64 b) ;; redc t.

(** One pass over the pairs (j, j+t), j = k .. k+t-1; [bf] computes the two new values from the two old ones *)
Definition pair_step (bf : Z -> Z -> option (Z * Z)) (t : nat) (x : list Z) (j : nat) : option (list Z) :=
  p <- bf (at_ x j) (at_ x (j + t)) ;; Some (aset (aset x j (fst p)) (j + t) (snd p)).
Fixpoint pairs_loop (bf : Z -> Z -> option (Z * Z)) (t n j : nat) (x : list Z) : option (list Z) :=
  match n with O => Some x | S n => x <- pair_step bf t x j ;; pairs_loop bf t n (S j) x end.
(** for i in 0..m, with s = table[m+i] and k advancing by 2t *)
Fixpoint blocks_loop (bf : Z -> Z -> Z -> option (Z * Z)) (tbl : list Z) (m t n i k : nat) (x : list Z) : option (list Z) :=
  match n with O => Some x | S n => x <- pairs_loop (bf (at_ tbl (m + i))) t t k x ;; blocks_loop bf tbl m t n (S i) (k + 2 * t) x end.
(** nhs.rs:253-258 *)
Definition ntt_bf (s u v : Z) : option (Z * Z) :=
  v <- modmul v s ;; a <- add32 u v ;; d <- mul32 2 PRIME ;; d <- add32 u d ;; d <- sub32 d v ;; Some (a, d).
(** nhs.rs:248-263 while m < DEGREE *)
Fixpoint ntt_loop (fuel m t : nat) (x : list Z) : option (list Z) :=
  if (m <? DEGREE)%nat then
    match fuel with O => None | S fuel => x <- blocks_loop ntt_bf ROOTS m t m 0 0 x ;; ntt_loop fuel (m * 2) (t / 2) x end
  else Some x.
(** nhs.rs:240-264 *)
Definition ntt (x : list Z) : option (list Z) := x <- map_opt nres x ;; ntt_loop LGN 1 (DEGREE / 2) x.

(** nhs.rs:276-282 *)
Definition intt_w (u v : Z) : option Z := d <- mul32 (Z.of_nat DEGREE) PRIME ;; w <- add32 u d ;; sub32 w v.
Definition intt_bf (s u v : Z) : option (Z * Z) := a <- add32 u v ;; w <- intt_w u v ;; b <- modmul w s ;; Some (a, b).
(** nhs.rs:269-287 while m > 1 *)
Fixpoint intt_loop (fuel m t : nat) (x : list Z) : option (list Z) :=
  if (1 <? m)%nat then
    match fuel with O => None | S fuel => x <- blocks_loop intt_bf IROOTS m t m 0 0 x ;; intt_loop fuel (m / 2) (t * 2) x end
  else Some x.
(** nhs.rs:289-297 *)
Definition last_bf (u v : Z) : option (Z * Z) := w <- intt_w u v ;; b <- modmul w INVPR ;; a <- add32 u v ;; a <- modmul a INV ;; Some (a, b).
(** nhs.rs:299-303 *)
Definition out_step (x : Z) : option Z := x <- redc (as_u64 x) ;; x <- sub32 x PRIME ;; add32 x (Z.land (sar31 x) PRIME).
(** nhs.rs:268-304 *)
Definition intt (x : list Z) : option (list Z) :=
  x <- intt_loop LGN (DEGREE / 2) 1 x ;; x <- pairs_loop last_bf (DEGREE / 2) (DEGREE / 2) 0 x ;; map_opt out_step x.

(** nhs.rs:308-325: coefficient i carries bit i mod 256 of the key, least significant bit of each byte first
    (the loop shifts a copy of the byte; here bit i mod 8 is selected) *)
Definition key_bit (key : list Z) (i : nat) : Z := Z.land (Z.shiftr (at_ key ((i mod 256) / 8)) (Z.of_nat ((i mod 256) mod 8))) 1.
Definition encode (key : list Z) : option (list Z) := map_opt (fun i => mul32 (key_bit key i) (Z.quot PRIME 2)) (seq 0 DEGREE).
(** nhs.rs:336-345 *)
Definition decode_bit (poly : list Z) (i : nat) : option Z :=
  let q2 := Z.quot PRIME 2 in
  let one := fun p => d <- sub32 (at_ poly p) q2 ;; nabs d in
  a <- one i ;; b <- one (i + 256)%nat ;; s <- add32 a b ;; c <- one (i + 512)%nat ;; s <- add32 s c ;; d <- one (i + 768)%nat ;; t <- add32 s d ;;
  b <- sub32 t PRIME ;; Some (Z.land (sar31 b) 1).
Fixpoint decode_byte (poly : list Z) (n i : nat) (k : Z) : option Z :=
  match n with O => Some k | S n => b <- decode_bit poly i ;; k <- chku 8 (Z.shiftr k 1 + wrapu 8 (Z.shiftl b 7)) ;; decode_byte poly n (S i) k end.
(** nhs.rs:327-348 *)
Definition decode (poly : list Z) : option (list Z) := map_opt (fun j => decode_byte poly 8 (8 * j) 0) (seq 0 32).

(** nhs.rs:361-372 *)
Definition parse_one (h : list Z) (i : nat) : option Z :=
  let j := (4 * i)%nat in
  n <- Some (Z.land (at_ h j) 127) ;;
  n <- add32 (wrap 32 (Z.shiftl n 8)) (at_ h (j + 1)) ;; n <- add32 (wrap 32 (Z.shiftl n 8)) (at_ h (j + 2)) ;; n <- add32 (wrap 32 (Z.shiftl n 8)) (at_ h (j + 3)) ;; nres n.
(** nhs.rs:352-373; SHAKE128 = 16 (sha3.rs) *)
Definition parse (bd : build) (seed : list Z) : option (list Z) :=
  sh <- Sha3.new bd 16 ;; sh <- Sha3.process_all bd sh seed ;; w <- Sha3.shake bd sh (4 * DEGREE) (4 * DEGREE) ;;
  map_opt (parse_one (fst w)) (seq 0 DEGREE).

(** nhs.rs:378-396, four coefficients to seven bytes *)
Definition pack4 (a b c d : Z) : list Z :=
  let sl x k := wrap 32 (Z.shiftl x k) in
  [ Z.land a 255; Z.land (Z.lor (Z.shiftr a 8) (sl b 6)) 255; Z.land (Z.shiftr b 2) 255; Z.land (Z.lor (Z.shiftr b 10) (sl c 4)) 255;
    Z.land (Z.shiftr c 4) 255; Z.land (Z.lor (Z.shiftr c 12) (sl d 2)) 255; wrapu 8 (Z.shiftr d 6) ].
Fixpoint nhs_pack (p : list Z) : list Z :=
  match p with a :: b :: c :: d :: p => pack4 a b c d ++ nhs_pack p | _ => [] end.
(** nhs.rs:398-416 *)
Definition unpack7 (a b c d e f g : Z) : list Z :=
  [ Z.lor a (Z.shiftl (Z.land b 63) 8); Z.lor (Z.lor (Z.shiftr b 6) (Z.shiftl c 2)) (Z.shiftl (Z.land d 15) 10);
    Z.lor (Z.lor (Z.shiftr d 4) (Z.shiftl e 4)) (Z.shiftl (Z.land f 3) 12); Z.lor (Z.shiftr f 2) (Z.shiftl g 6) ].
Fixpoint nhs_unpack (l : list Z) : list Z :=
  match l with a :: b :: c :: d :: e :: f :: g :: l => unpack7 a b c d e f g ++ nhs_unpack l | _ => [] end.

(** nhs.rs:420-436, eight coefficients to three bytes *)
Fixpoint compress_col (p : list Z) (n : nat) (col : Z) : option (Z * list Z) :=
  match n, p with
  | O, _ => Some (col, p)
  | S n, x :: p => y <- mul32 x 8 ;; b <- round y PRIME ;; col <- add32 (wrap 32 (Z.shiftl col 3)) (Z.land b 7) ;; compress_col p n col
  | S _, [] => None
  end.
Fixpoint compress (n : nat) (p : list Z) : option (list Z) :=
  match n with
  | O => Some []
  | S n => c <- compress_col p 8 0 ;; r <- compress n (snd c) ;; Some (Z.land (fst c) 255 :: Z.land (Z.shiftr (fst c) 8) 255 :: Z.land (Z.shiftr (fst c) 16) 255 :: r)
  end.
(** nhs.rs:438-453 *)
Fixpoint decompress_col (n : nat) (col : Z) : option (list Z) :=
  match n with
  | O => Some []
  | S n => let b := Z.shiftr (Z.land col 0xe00000) 21 in y <- mul32 b PRIME ;; x <- round y 8 ;; r <- decompress_col n (wrap 32 (Z.shiftl col 3)) ;; Some (x :: r)
  end.
Fixpoint decompress (l : list Z) : option (list Z) :=
  match l with
  | a :: b :: c :: l => col <- add32 (wrap 32 (Z.shiftl c 8)) b ;; col <- add32 (wrap 32 (Z.shiftl col 8)) a ;; x <- decompress_col 8 col ;; r <- decompress l ;; Some (x ++ r)
  | _ => Some []
  end.

(** nhs.rs:459-467: sixteen turns *)
Fixpoint bit_diff (n : nat) (n1 n2 r : Z) : option Z :=
  match n with O => Some r | S n => d <- sub32 (Z.land n1 1) (Z.land n2 1) ;; r <- add32 r d ;; bit_diff n (Z.shiftr n1 1) (Z.shiftr n2 1) r end.
Definition error_one (bd : build) (g : rnd) : option (Z * rnd) :=
  a <- getbyte bd g ;; b <- getbyte bd (snd a) ;; c <- getbyte bd (snd b) ;; d <- getbyte bd (snd c) ;;
  n1 <- add32 (fst a) (Z.shiftl (fst b) 8) ;; n2 <- add32 (fst c) (Z.shiftl (fst d) 8) ;;
  r <- bit_diff 16 n1 n2 0 ;; r <- add32 r PRIME ;; Some (r, snd d).
(** nhs.rs:457-469 *)
Fixpoint error_loop (bd : build) (n : nat) (g : rnd) : option (list Z * rnd) :=
  match n with O => Some ([], g) | S n => a <- error_one bd g ;; r <- error_loop bd n (snd a) ;; Some (fst a :: fst r, snd r) end.
Definition error (bd : build) (g : rnd) : option (list Z * rnd) := error_loop bd DEGREE g.

(** nhs.rs:471-516 *)
Definition redc_it (p : list Z) : option (list Z) := map_opt (fun x => redc (as_u64 x)) p.
Definition nres_it (p : list Z) : option (list Z) := map_opt nres p.
Definition poly_mul (p1 p3 : list Z) : option (list Z) := map2_opt modmul p1 p3.
Definition poly_add (p1 p3 : list Z) : option (list Z) := map2_opt add32 p1 p3.
Definition poly_rsub (p1 p2 : list Z) : option (list Z) := map2_opt (fun x y => s <- add32 y PRIME ;; sub32 s x) p1 p2.
Definition fix_up (e : Z) : option Z := e <- sub32 e PRIME ;; add32 e (Z.land (sar31 e) PRIME).
Definition poly_soft_reduce (p : list Z) : option (list Z) := map_opt fix_up p.
Definition poly_hard_reduce (p : list Z) : option (list Z) := map_opt (fun x => e <- modmul x ONE ;; fix_up e) p.

(** the literal lengths of nhs.rs:520-684: 1792 bytes of packed coefficients, 32 more for the seed, 384 bytes of compressed coefficients *)
Definition POLY_LEN : nat := 1792.
Definition SB_LEN : nat := 1824.
Definition CC_LEN : nat := 384.
Definition UC_LEN : nat := 2176.
(** nhs.rs:520-559 server_1: returns the first 1824 bytes of sb, the first 1792 of ss and the generator; [lsb], [lss] are the buffer lengths *)
Definition server_1 (bd : build) (g : rnd) (lsb lss : nat) : option (list Z * list Z * rnd) :=
  sd <- getbytes bd 32 g ;;
  b <- parse bd (fst sd) ;;
  e <- error bd (snd sd) ;; s <- error bd (snd e) ;;
  sn <- ntt (fst s) ;; en <- ntt (fst e) ;;
  b <- poly_mul b sn ;; b <- poly_add b en ;; b <- poly_hard_reduce b ;; b <- redc_it b ;;
  sn <- poly_hard_reduce sn ;;
  if (lsb <? SB_LEN)%nat || (lss <? POLY_LEN)%nat then None else
  Some (fst sd ++ nhs_pack b, nhs_pack sn, snd s).
(** the hash steps of client and server_2: SHA3-256 of 32 bytes into a 32-byte buffer *)
Definition hash32 (bd : build) (k : list Z) : option (list Z) :=
  sh <- Sha3.new bd 32 ;; sh <- Sha3.process_all bd sh k ;; w <- Sha3.hash bd sh 32 ;; Some (fst w).
(** nhs.rs:561-637 client: returns the first 2176 bytes of uc and the first 32 of okey.
    Simplification: the first digest is taken from a new SHA3 object, as in the source, and both are computed by [hash32]. *)
Definition client (bd : build) (g : rnd) (sb : list Z) (luc lkey : nat) : option (list Z * list Z * rnd) :=
  sd <- error bd g ;; ed <- error bd (snd sd) ;;
  sdn <- ntt (fst sd) ;; edn <- ntt (fst ed) ;;
  if (length sb <? SB_LEN)%nat then None else
  let seed := firstn 32 sb in let array := firstn POLY_LEN (skipn 32 sb) in
  u <- parse bd seed ;;
  u <- poly_mul u sdn ;; u <- poly_add u edn ;; u <- poly_hard_reduce u ;;
  k0 <- getbytes bd 32 (snd ed) ;;
  key <- hash32 bd (fst k0) ;;
  k <- encode key ;;
  c <- nres_it (nhs_unpack array) ;;
  c <- poly_mul c sdn ;; c <- intt c ;;
  ed2 <- error bd (snd k0) ;;
  c <- poly_add c (fst ed2) ;; c <- poly_add c k ;;
  cc <- compress (DEGREE / 8) c ;;
  key <- hash32 bd key ;;
  u <- redc_it u ;;
  if (lkey <? 32)%nat || (luc <? UC_LEN)%nat then None else
  Some (nhs_pack u ++ cc, key, snd ed2).
(** nhs.rs:639-684 server_2 *)
Definition server_2 (bd : build) (ss uc : list Z) (lkey : nat) : option (list Z) :=
  if (length uc <? UC_LEN)%nat then None else
  let array := firstn POLY_LEN uc in let cc := firstn CC_LEN (skipn POLY_LEN uc) in
  k <- nres_it (nhs_unpack array) ;;
  c <- decompress cc ;;
  if (length ss <? POLY_LEN)%nat then None else
  let s := nhs_unpack (firstn POLY_LEN ss) in
  k <- poly_mul k s ;; k <- intt k ;; k <- poly_rsub k c ;; k <- poly_soft_reduce k ;;
  key <- decode k ;;
  key <- hash32 bd key ;;
  if (lkey <? 32)%nat then None else Some key.
