(** Model of /repo/src/big.rs and /repo/src/dbig.rs: multi-limb integers.
    A [Big] is the list of its limbs [w[0]; ...; w[NLEN-1]] (least significant
    first); a [DBig] is a list of [2*NLEN] limbs.  Array lengths are fixed by
    the Rust types, so an index below the length never panics; [get] is only used
    with such indices.  [None] = panic (overflow in a checked build, bad slice
    index) or loop fuel exhausted (excluded by the theorems). *)
From Verif Require Export Base.Word.

(** Configuration: big.rs:33-40 with arch32.rs/arch64.rs (CHUNK) and the ROM
    constants BASEBITS, MODBYTES. [isize] has CHUNK bits on both targets. *)
Record cfg := mkcfg { CHUNK : Z; BASEBITS : Z; MODBYTES : Z }.

Definition NLENz (c : cfg) : Z := 1 + (8 * MODBYTES c - 1) / BASEBITS c.  (* big.rs:33 *)
Definition NLEN (c : cfg) : nat := Z.to_nat (NLENz c).
Definition DNLEN (c : cfg) : nat := (2 * NLEN c)%nat.                     (* big.rs:34 *)
Definition BMASK (c : cfg) : Z := 2 ^ BASEBITS c - 1.                     (* big.rs:35 *)
Definition BIGBITS (c : cfg) : Z := MODBYTES c * 8.                       (* big.rs:39 *)

Definition get (w : list Z) (i : nat) : Z := nth i w 0.                   (* self.w[i] *)

(** big.rs:82-97 new, new_int *)
Definition big_new (c : cfg) : list Z := repeat 0 (NLEN c).
Definition dbig_new (c : cfg) : list Z := repeat 0 (DNLEN c).              (* dbig.rs:31-35 *)
Definition big_new_int (c : cfg) (x : Z) : list Z := wrap (CHUNK c) x :: repeat 0 (NLEN c - 1).
(** big.rs:153-158 one *)
Definition big_one (c : cfg) : list Z := 1 :: repeat 0 (NLEN c - 1).
(** big.rs:108-114, 161-165 new_dcopy / dcopy *)
Definition big_dcopy (c : cfg) (y : list Z) : list Z := firstn (NLEN c) y.

(** big.rs:125-132 iszilch; 142-152 isunity *)
Definition iszilch (w : list Z) : bool := forallb (fun x => x =? 0) w.
Definition isunity (w : list Z) : bool :=
  match w with x :: t => (x =? 1) && iszilch t | [] => false end.

(** big.rs:168-174 muladd: (top, bottom) of a*b+c+r, computed in DChunk *)
Definition muladd (c : cfg) (a b cc r : Z) : option (Z * Z) :=
  p0 <- chk (2 * CHUNK c) (a * b) ;;
  p1 <- chk (2 * CHUNK c) (p0 + cc) ;;
  prod <- chk (2 * CHUNK c) (p1 + r) ;;
  Some (wrap (CHUNK c) (Z.shiftr prod (BASEBITS c)),
        wrap (CHUNK c) (Z.land prod (BMASK c))).

(** big.rs:177-187 norm (and dbig.rs:144-152): carry propagation *)
Fixpoint norm_loop (c : cfg) (w : list Z) (carry : Z) : option (list Z) :=
  match w with
  | [] => Some []
  | [x] => t <- chk (CHUNK c) (x + carry) ;; Some [t]
  | x :: t =>
      d <- chk (CHUNK c) (x + carry) ;;
      r <- norm_loop c t (Z.shiftr d (BASEBITS c)) ;;
      Some (Z.land d (BMASK c) :: r)
  end.
Definition norm (c : cfg) (w : list Z) : option (list Z) := norm_loop c w 0.
(** big.rs:186 the value returned by Big::norm *)
Definition excess_of (c : cfg) (w : list Z) : Z :=
  Z.shiftr (last w 0) ((8 * MODBYTES c) mod BASEBITS c).

(** limb-wise loops *)
Fixpoint map2o (f : Z -> Z -> option Z) (a b : list Z) : option (list Z) :=
  match a, b with
  | x :: a', y :: b' => z <- f x y ;; r <- map2o f a' b' ;; Some (z :: r)
  | _, _ => Some []
  end.
Fixpoint map1o (f : Z -> option Z) (a : list Z) : option (list Z) :=
  match a with
  | x :: a' => z <- f x ;; r <- map1o f a' ;; Some (z :: r)
  | [] => Some []
  end.

(** big.rs:190-198 cswap; 200-205 cmove (dbig.rs:106-111) *)
Fixpoint cswap_loop (m : Z) (a b : list Z) : list Z * list Z :=
  match a, b with
  | x :: a', y :: b' =>
      let t := Z.land m (Z.lxor x y) in
      let (ra, rb) := cswap_loop m a' b' in
      (Z.lxor x t :: ra, Z.lxor y t :: rb)
  | _, _ => ([], [])
  end.
Definition cswap (c : cfg) (a b : list Z) (d : Z) : option (list Z * list Z) :=
  m <- chk (CHUNK c) (wrap (CHUNK c) d - 1) ;;
  Some (cswap_loop (Z.lnot m) a b).
Fixpoint cmove_loop (m : Z) (a g : list Z) : list Z :=
  match a, g with
  | x :: a', y :: g' => Z.lxor x (Z.land (Z.lxor x y) m) :: cmove_loop m a' g'
  | _, _ => []
  end.
Definition cmove (c : cfg) (a g : list Z) (d : Z) : option (list Z) :=
  m <- chk (CHUNK c) (- d) ;; Some (cmove_loop m a g).

(** big.rs:208-216 fshr: shift right by k bits; returns (bits shifted out, limbs).
    [<<] on a Chunk wraps; a shift amount >= CHUNK or BASEBITS-k < 0 panics. *)
Fixpoint shr_limbs (c : cfg) (k : Z) (w : list Z) : list Z :=
  match w with
  | [] => []
  | [x] => [Z.shiftr x k]
  | x :: ((y :: _) as t) =>
      Z.lor (Z.shiftr x k)
            (Z.land (wrap (CHUNK c) (Z.shiftl y (BASEBITS c - k))) (BMASK c))
      :: shr_limbs c k t
  end.
Definition fshr (c : cfg) (w : list Z) (k : Z) : option (Z * list Z) :=
  if (0 <=? k) && (k <=? BASEBITS c)
  then Some (Z.land (get w 0) (2 ^ k - 1), shr_limbs c k w)
  else None.

(** big.rs:219-230 shr (dbig.rs:85-96): general shift right. [NLEN-m-1] underflows if m >= NLEN *)
Definition shr (c : cfg) (w : list Z) (k : Z) : option (list Z) :=
  let n := k mod BASEBITS c in
  let m := Z.to_nat (k / BASEBITS c) in
  if (m <? length w)%nat
  then Some (shr_limbs c n (skipn m w) ++ repeat 0 m)
  else None.

(** big.rs:233-242 fshl: all limbs but the top one are masked *)
Fixpoint shl_limbs (c : cfg) (k prev : Z) (w : list Z) : list Z :=
  match w with
  | [] => []
  | [x] => [Z.lor (wrap (CHUNK c) (Z.shiftl x k)) (Z.shiftr prev (BASEBITS c - k))]
  | x :: t =>
      Z.lor (Z.land (wrap (CHUNK c) (Z.shiftl x k)) (BMASK c))
            (Z.shiftr prev (BASEBITS c - k))
      :: shl_limbs c k x t
  end.
Definition shl_all (c : cfg) (k : Z) (w : list Z) : list Z :=
  match w with
  | [] => []
  | x :: t => Z.land (wrap (CHUNK c) (Z.shiftl x k)) (BMASK c) :: shl_limbs c k x t
  end.
(** [NLEN - 2] underflows when NLEN = 1 *)
Definition fshl (c : cfg) (w : list Z) (k : Z) : option (list Z) :=
  if (0 <=? k) && (k <=? BASEBITS c) && (2 <=? length w)%nat
  then Some (shl_all c k w)
  else None.

(** big.rs:245-260 shl (dbig.rs:69-82; DBig::shl has no [NLEN >= m+2] guard and
    panics when m+2 > DNLEN, see [dshl]) *)
Definition shl (c : cfg) (w : list Z) (k : Z) : option (list Z) :=
  let n := k mod BASEBITS c in
  let m := Z.to_nat (k / BASEBITS c) in
  if (m <? length w)%nat
  then Some (repeat 0 m ++ shl_all c n (firstn (length w - m) w))
  else None.
Definition dshl (c : cfg) (w : list Z) (k : Z) : option (list Z) :=
  if (Z.to_nat (k / BASEBITS c) + 2 <=? length w)%nat then shl c w k else None.

(** big.rs:263-282 nbits (dbig.rs:232-250) *)
Fixpoint count_bits (fuel : nat) (x : Z) : option Z :=
  match fuel with
  | O => None
  | S f => if x =? 0 then Some 0 else r <- count_bits f (Z.quot x 2) ;; Some (1 + r)
  end.
(** index of the most significant non-zero limb, with that limb *)
Fixpoint top_limb (w : list Z) : option (nat * Z) :=
  match w with
  | [] => None
  | x :: t => match top_limb t with
              | Some (i, y) => Some (S i, y)
              | None => if x =? 0 then None else Some (O, x)
              end
  end.
Definition nbits (c : cfg) (w : list Z) : option Z :=
  s <- norm c w ;;
  match top_limb s with
  | None => Some 0
  | Some (k, x) => b <- count_bits (S (Z.to_nat (CHUNK c))) x ;; Some (BASEBITS c * Z.of_nat k + b)
  end.

(** big.rs:324-340, 358-375, 378-383 *)
Definition add (c : cfg) := map2o (fun x y => chk (CHUNK c) (x + y)).       (* add, plus *)
Definition sub (c : cfg) := map2o (fun x y => chk (CHUNK c) (x - y)).       (* sub, minus *)
Definition rsub (c : cfg) := map2o (fun x y => chk (CHUNK c) (y - x)).      (* self = x - self *)
Definition dbl (c : cfg) := map1o (fun x => chk (CHUNK c) (x + x)).
Definition imul (c : cfg) (w : list Z) (k : Z) := map1o (fun x => chk (CHUNK c) (x * wrap (CHUNK c) k)) w.
(** big.rs:351-355 inc; 379-382 dec *)
Definition inc (c : cfg) (w : list Z) (x : Z) : option (list Z) :=
  s <- norm c w ;;
  match s with
  | y :: t => z <- chk (CHUNK c) (y + wrap (CHUNK c) x) ;; Some (z :: t)
  | [] => Some []
  end.
Definition dec (c : cfg) (w : list Z) (x : Z) : option (list Z) :=
  s <- norm c w ;;
  match s with
  | y :: t => z <- chk (CHUNK c) (y - wrap (CHUNK c) x) ;; Some (z :: t)
  | [] => Some []
  end.
(** big.rs:331-335 or *)
Fixpoint bor (a b : list Z) : list Z :=
  match a, b with x :: a', y :: b' => Z.lor x y :: bor a' b' | _, _ => [] end.

(** big.rs:395-403 tobytearray: bytes most significant first; [b] is the caller's
    buffer, written at index n .. n+MODBYTES-1 *)
Fixpoint bytes_loop (c : cfg) (k : nat) (w : list Z) : option (list Z) :=
  match k with
  | O => Some []
  | S k' =>
      p <- fshr c w 8 ;;
      r <- bytes_loop c k' (snd p) ;;
      Some (r ++ [Z.land (get w 0) 255])
  end.
Definition tobytearray (c : cfg) (w : list Z) (b : list Z) (n : nat) : option (list Z) :=
  s <- norm c w ;;
  let mb := Z.to_nat (MODBYTES c) in
  if (n + mb <=? length b)%nat
  then bs <- bytes_loop c mb s ;; Some (firstn n b ++ bs ++ skipn (n + mb) b)
  else None.
Definition tobytes (c : cfg) (w b : list Z) : option (list Z) := tobytearray c w b 0.

(** big.rs:408-425 frombytearray; length is clipped to MODBYTES but taken from the
    whole slice, so [b[i+n]] can be out of bounds *)
Definition add_low (c : cfg) (w : list Z) (x : Z) : option (list Z) :=   (* m.w[0] += x *)
  match w with y :: t => z <- chk (CHUNK c) (y + x) ;; Some (z :: t) | [] => None end.
Fixpoint frombytes_loop (c : cfg) (idx : list nat) (b : list Z) (m : list Z) : option (list Z) :=
  match idx with
  | [] => Some m
  | i :: r =>
      m1 <- fshl c m 8 ;;
      x <- nth_error b i ;;
      m2 <- add_low c m1 (Z.land x 255) ;;
      frombytes_loop c r b m2
  end.
Definition frombytearray (c : cfg) (b : list Z) (n : nat) : option (list Z) :=
  let len := Nat.min (Z.to_nat (MODBYTES c)) (length b) in
  frombytes_loop c (seq n len) b (big_new c).
Definition frombytes (c : cfg) (b : list Z) : option (list Z) := frombytearray c b 0.

(** dbig.rs:275-296 DBig::frombytes *)
Fixpoint dfrombytes_loop (c : cfg) (bs : list Z) (m : list Z) : option (list Z) :=
  match bs with
  | [] => Some m
  | x :: r =>
      m1 <- dshl c m 8 ;;
      m2 <- add_low c m1 (Z.land x 255) ;;
      dfrombytes_loop c r m2
  end.
Definition dfrombytes (c : cfg) (b : list Z) : option (list Z) :=
  dfrombytes_loop c (firstn (Z.to_nat (2 * MODBYTES c)) b) (dbig_new c).

(** big.rs:442-451 pmul; 454-464 pxmul *)
Fixpoint pmul_loop (c : cfg) (w : list Z) (k carry : Z) : option (Z * list Z) :=
  match w with
  | [] => Some (carry, [])
  | x :: t =>
      tb <- muladd c x k carry 0 ;;
      r <- pmul_loop c t k (fst tb) ;;
      Some (fst r, snd tb :: snd r)
  end.
Definition pmul (c : cfg) (w : list Z) (k : Z) : option (Z * list Z) :=
  pmul_loop c w (wrap (CHUNK c) k) 0.
Definition pxmul (c : cfg) (w : list Z) (k : Z) : option (list Z) :=
  r <- pmul_loop c w (wrap (CHUNK c) k) 0 ;;
  Some (snd r ++ fst r :: repeat 0 (NLEN c - 1)).

(** big.rs:467-477 div3: most significant limb first, truncating division *)
Fixpoint div3_loop (c : cfg) (w : list Z) : option (Z * list Z) :=   (* (carry, limbs) *)
  match w with
  | [] => Some (0, [])
  | x :: t =>
      r <- div3_loop c t ;;
      m <- chk (CHUNK c) (fst r * 2 ^ BASEBITS c) ;;
      ak <- chk (CHUNK c) (m + x) ;;
      Some (Z.rem ak 3, Z.quot ak 3 :: snd r)
  end.
Definition div3 (c : cfg) (w : list Z) : option (Z * list Z) :=
  s <- norm c w ;; div3_loop c s.

(** big.rs:480-493 smul: low NLEN limbs of the product. Row i adds a[i]*b to c[i..] *)
Fixpoint smul_row (c : cfg) (ai : Z) (b acc : list Z) (carry : Z) : option (list Z) :=
  match b, acc with
  | bj :: b', x :: acc' =>
      tb <- muladd c ai bj carry x ;;
      r <- smul_row c ai b' acc' (fst tb) ;;
      Some (snd tb :: r)
  | _, _ => Some acc
  end.
Fixpoint smul_rows (c : cfg) (a b acc : list Z) : option (list Z) :=
  match a, acc with
  | ai :: a', _ =>
      acc1 <- smul_row c ai b acc 0 ;;
      match acc1 with
      | x :: rest => r <- smul_rows c a' b rest ;; Some (x :: r)
      | [] => Some []
      end
  | [], _ => Some acc
  end.
Definition smul (c : cfg) (a b : list Z) : option (list Z) := smul_rows c a b (big_new c).

(** big.rs:496-508 comp (dbig.rs:131-142): the first difference from the top decides *)
Fixpoint comp (a b : list Z) : Z :=
  match a, b with
  | x :: a', y :: b' =>
      let r := comp a' b' in
      if r =? 0 then (if x =? y then 0 else if y <? x then 1 else -1) else r
  | _, _ => 0
  end.

(** big.rs:511-519 mod2m (dbig.rs:221-229) *)
Definition mod2m (c : cfg) (w : list Z) (m : Z) : option (list Z) :=
  let wd := Z.to_nat (m / BASEBITS c) in
  let bt := m mod BASEBITS c in
  if (wd <? length w)%nat
  then Some (firstn wd w ++ Z.land (get w wd) (2 ^ bt - 1) :: repeat 0 (length w - wd - 1))
  else None.

(** big.rs:522-560 invmod256 (isize arithmetic; no overflow for |a| small, the caller passes 0..255) *)
Definition invmod256 (a : Z) : Z :=
  let c := Z.land (Z.shiftr a 1) 1 in
  let t1 := Z.land (0 + c) 1 in
  let t1 := Z.shiftl (2 - t1) 1 in
  let u := t1 + 1 in
  let b := Z.land a 3 in
  let t1 := Z.shiftr (u * b) 2 in
  let c := Z.land (Z.shiftr a 2) 3 in
  let t2 := Z.land (u * c) 3 in
  let t1 := Z.land ((t1 + t2) * u) 3 in
  let t1 := Z.shiftl (4 - t1) 2 in
  let u := u + t1 in
  let b := Z.land a 15 in
  let t1 := Z.shiftr (u * b) 4 in
  let c := Z.land (Z.shiftr a 4) 15 in
  let t2 := Z.land (u * c) 15 in
  let t1 := Z.land ((t1 + t2) * u) 15 in
  let t1 := Z.shiftl (16 - t1) 4 in
  u + t1.

(** big.rs:563-582 parity, bit, lastbits *)
Definition parity (w : list Z) : Z := Z.rem (get w 0) 2.
Definition bit (c : cfg) (w : list Z) (n : Z) : option Z :=
  x <- nth_error w (Z.to_nat (n / BASEBITS c)) ;;
  Some (if 0 <? Z.land x (2 ^ (n mod BASEBITS c)) then 1 else 0).
Definition lastbits (c : cfg) (w : list Z) (n : Z) : option (Z * list Z) :=
  s <- norm c w ;; Some (Z.land (get s 0) (2 ^ n - 1), s).

(** big.rs:585-619 invmod2m *)
Fixpoint invmod2m_loop (fuel : nat) (c : cfg) (self u : list Z) (i : Z) : option (list Z) :=
  if BIGBITS c <=? i then Some u else
  match fuel with
  | O => None
  | S f =>
      u <- norm c u ;;
      b <- mod2m c self i ;;
      t1 <- smul c u b ;;
      t1 <- shr c t1 i ;;
      cc <- shr c self i ;;
      cc <- mod2m c cc i ;;
      t2 <- smul c u cc ;;
      t2 <- mod2m c t2 i ;;
      t1 <- add c t1 t2 ;;
      t1 <- norm c t1 ;;
      b <- smul c t1 u ;;
      t1 <- mod2m c b i ;;
      t2 <- shl c (big_one c) i ;;
      t1 <- rsub c t1 t2 ;;
      t1 <- norm c t1 ;;
      t1 <- shl c t1 i ;;
      u <- add c u t1 ;;
      invmod2m_loop f c self u (2 * i)
  end.
Definition invmod2m (c : cfg) (w : list Z) : option (list Z) :=
  p <- lastbits c w 8 ;;
  u <- inc c (big_new c) (invmod256 (fst p)) ;;
  u <- invmod2m_loop 16 c (snd p) u 8 ;;
  u <- mod2m c u (BIGBITS c) ;;
  norm c u.

(** sign bit test [(x >> (CHUNK-1)) & 1] *)
Definition signbit (c : cfg) (x : Z) : Z := Z.land (Z.shiftr x (CHUNK c - 1)) 1.

(** big.rs:624-653 rmod.  [rmod_up]: the doubling loop; [rmod_down]: shift back and
    conditionally subtract.  [up] is the shift used for m (fshl for Big, DBig::shl for DBig). *)
Fixpoint rmod_up (fuel : nat) (up : list Z -> option (list Z)) (self m : list Z) (k : nat)
  : option (list Z * nat) :=
  match fuel with
  | O => None
  | S f =>
      m1 <- up m ;;
      if comp self m1 <? 0 then Some (m1, S k) else rmod_up f up self m1 (S k)
  end.
Fixpoint rmod_down (c : cfg) (down : list Z -> option (list Z)) (k : nat) (self m : list Z)
  : option (list Z) :=
  match k with
  | O => Some self
  | S k' =>
      m1 <- down m ;;
      r0 <- sub c self m1 ;;
      r <- norm c r0 ;;
      self1 <- cmove c self r (1 - signbit c (last r 0)) ;;
      rmod_down c down k' self1 m1
  end.
(** enough iterations for any shift that still fits in the limbs *)
Definition loop_fuel (c : cfg) (w : list Z) : nat := Z.to_nat (Z.of_nat (length w) * CHUNK c).
Definition big_up (c : cfg) (m : list Z) := fshl c m 1.
Definition big_down (c : cfg) (m : list Z) := p <- fshr c m 1 ;; Some (snd p).
Definition rmod (c : cfg) (self n : list Z) : option (list Z) :=
  s <- norm c self ;;
  if comp s n <? 0 then Some s else
  mk <- rmod_up (loop_fuel c n) (big_up c) s n 0 ;;
  rmod_down c (big_down c) (snd mk) s (fst mk).

(** big.rs:658-689 div; dbig.rs:188-218 DBig::div (with e.shr for e.fshr). [acc] is the quotient. *)
Fixpoint div_up (fuel : nat) (c : cfg) (up : list Z -> option (list Z)) (b e m : list Z) (k : nat)
  : option (list Z * list Z * nat) :=
  if comp b m <? 0 then Some (e, m, k) else
  match fuel with
  | O => None
  | S f =>
      e1 <- fshl c e 1 ;;
      m1 <- up m ;;
      div_up f c up b e1 m1 (S k)
  end.
Fixpoint div_down (c : cfg) (down : list Z -> option (list Z)) (edown : list Z -> option (list Z))
    (k : nat) (acc b e m : list Z) : option (list Z) :=
  match k with
  | O => Some acc
  | S k' =>
      m1 <- down m ;;
      e1 <- edown e ;;
      r0 <- sub c b m1 ;;
      r <- norm c r0 ;;
      let d := 1 - signbit c (last r 0) in
      b1 <- cmove c b r d ;;
      r1 <- add c acc e1 ;;
      r2 <- norm c r1 ;;
      acc1 <- cmove c acc r2 d ;;
      div_down c down edown k' acc1 b1 e1 m1
  end.
Definition div (c : cfg) (self n : list Z) : option (list Z) :=
  s <- norm c self ;;
  emk <- div_up (loop_fuel c n) c (big_up c) s (big_new_int c 1) n 0 ;;
  let '(e, m, k) := emk in
  div_down c (big_down c) (big_down c) k (big_new c) s e m.

(** dbig.rs:37-49 new_scopy *)
Definition scopy (c : cfg) (x : list Z) : list Z :=
  firstn (NLEN c - 1) x
  ++ Z.land (get x (NLEN c - 1)) (BMASK c)
  :: Z.shiftr (get x (NLEN c - 1)) (BASEBITS c)
  :: repeat 0 (NLEN c - 1).

(** dbig.rs:155-185 dmod; 188-218 div *)
Definition dbig_up (c : cfg) (m : list Z) := dshl c m 1.
Definition dbig_down (c : cfg) (m : list Z) := shr c m 1.
Definition dmod (c : cfg) (self n : list Z) : option (list Z) :=
  s <- norm c self ;;
  let m := scopy c n in
  if comp s m <? 0 then Some (big_dcopy c s) else
  mk <- rmod_up (loop_fuel c m) (dbig_up c) s m 0 ;;
  r <- rmod_down c (dbig_down c) (snd mk) s (fst mk) ;;
  Some (big_dcopy c r).
Definition ddiv (c : cfg) (self n : list Z) : option (list Z) :=
  let m := scopy c n in
  s <- norm c self ;;
  emk <- div_up (loop_fuel c m) c (dbig_up c) s (big_new_int c 1) m 0 ;;
  let '(e, m, k) := emk in
  div_down c (dbig_down c) (dbig_down c) k (big_new c) s e m.

(** dbig.rs:52-66 split: returns (high half, low half kept in self) *)
Fixpoint split_loop (c : cfg) (m : Z) (w : list Z) (carry0 : Z) : list Z * Z :=
  (* w: limbs NLEN-1 .. DNLEN-2, least significant first; returns t limbs and the
     carry produced by the least significant limb; carry0 comes from limb DNLEN-1 *)
  match w with
  | [] => ([], carry0)
  | x :: t =>
      let (r, carry) := split_loop c m t carry0 in
      (Z.lor (Z.shiftr x m) carry :: r,
       Z.land (wrap (CHUNK c) (Z.shiftl x (BASEBITS c - m))) (BMASK c))
  end.
Definition split (c : cfg) (w : list Z) (n : Z) : list Z * list Z :=
  let m := n mod BASEBITS c in
  let carry0 := wrap (CHUNK c) (Z.shiftl (get w (DNLEN c - 1)) (BASEBITS c - m)) in
  let hi := fst (split_loop c m (firstn (NLEN c) (skipn (NLEN c - 1) w)) carry0) in
  (hi, firstn (NLEN c - 1) w
       ++ Z.land (get w (NLEN c - 1)) (2 ^ m - 1) :: skipn (NLEN c) w).

(** big.rs:842-880 mul. [mul_terms]: the inner loop over i for column k *)
Fixpoint mul_terms (c : cfg) (a b : list Z) (k : nat) (is : list nat) (t : Z) : option Z :=
  match is with
  | [] => Some t
  | i :: r =>
      x <- chk (CHUNK c) (get a i - get a (k - i)) ;;
      y <- chk (CHUNK c) (get b (k - i) - get b i) ;;
      p <- chk (2 * CHUNK c) (x * y) ;;
      t1 <- chk (2 * CHUNK c) (t + p) ;;
      mul_terms c a b k r t1
  end.
Definition dlow (c : cfg) (t : Z) : Z := wrap (CHUNK c) (Z.land t (BMASK c)).  (* (t & rm) as Chunk *)
Fixpoint mul_lo (c : cfg) (a b d : list Z) (ks : list nat) (s co : Z) : option (Z * Z * list Z) :=
  match ks with
  | [] => Some (s, co, [])
  | k :: r =>
      s1 <- chk (2 * CHUNK c) (s + get d k) ;;
      t0 <- chk (2 * CHUNK c) (co + s1) ;;
      t <- mul_terms c a b k (seq (1 + k / 2) (k - k / 2)) t0 ;;
      q <- mul_lo c a b d r s1 (Z.shiftr t (BASEBITS c)) ;;
      let '(s2, co2, ds) := q in Some (s2, co2, dlow c t :: ds)
  end.
Fixpoint mul_hi (c : cfg) (a b d : list Z) (ks : list nat) (s co : Z) : option (Z * Z * list Z) :=
  match ks with
  | [] => Some (s, co, [])
  | k :: r =>
      s1 <- chk (2 * CHUNK c) (s - get d (k - NLEN c)) ;;
      t0 <- chk (2 * CHUNK c) (co + s1) ;;
      t <- mul_terms c a b k (seq (1 + k / 2) (NLEN c - (1 + k / 2))) t0 ;;
      q <- mul_hi c a b d r s1 (Z.shiftr t (BASEBITS c)) ;;
      let '(s2, co2, ds) := q in Some (s2, co2, dlow c t :: ds)
  end.
Definition mul (c : cfg) (a b : list Z) : option (list Z) :=
  d <- map2o (fun x y => chk (2 * CHUNK c) (x * y)) a b ;;
  let s := get d 0 in
  let co := Z.shiftr s (BASEBITS c) in
  q1 <- mul_lo c a b d (seq 1 (NLEN c - 1)) s co ;;
  let '(s1, co1, ds1) := q1 in
  q2 <- mul_hi c a b d (seq (NLEN c) (NLEN c - 1)) s1 co1 ;;
  let '(s2, co2, ds2) := q2 in
  Some (dlow c s :: ds1 ++ ds2 ++ [wrap (CHUNK c) co2]).

(** big.rs:885-951 sqr.  [sqr_terms]: t += a[j-i]*a[i]; columns come in pairs (odd then even). *)
Fixpoint sqr_terms (c : cfg) (a : list Z) (j : nat) (is : list nat) (t : Z) : option Z :=
  match is with
  | [] => Some t
  | i :: r =>
      p <- chk (2 * CHUNK c) (get a (j - i) * get a i) ;;
      t1 <- chk (2 * CHUNK c) (t + p) ;;
      sqr_terms c a j r t1
  end.
(** one column: first product a[hi]*a[lo], inner terms, doubling, carry-in, optional middle square *)
Definition sqr_col (c : cfg) (a : list Z) (j hi lo : nat) (is : list nat) (mid : bool) (co : Z)
  : option Z :=
  t0 <- chk (2 * CHUNK c) (get a hi * get a lo) ;;
  t1 <- sqr_terms c a j is t0 ;;
  t2 <- chk (2 * CHUNK c) (t1 + t1) ;;
  t3 <- chk (2 * CHUNK c) (t2 + co) ;;
  if mid
  then sq <- chk (2 * CHUNK c) (get a (j / 2) * get a (j / 2)) ;; chk (2 * CHUNK c) (t3 + sq)
  else Some t3.
Fixpoint sqr_lo (c : cfg) (a : list Z) (fuel j : nat) (co : Z) : option (Z * list Z) :=
  match fuel with
  | O => Some (co, [])
  | S f =>   (* while j < NLEN - 1; fuel = number of iterations *)
      t <- sqr_col c a j j 0 (seq 1 ((j + 1) / 2 - 1)) false co ;;
      t' <- sqr_col c a (j + 1) (j + 1) 0 (seq 1 ((j + 2) / 2 - 1)) true (Z.shiftr t (BASEBITS c)) ;;
      r <- sqr_lo c a f (j + 2) (Z.shiftr t' (BASEBITS c)) ;;
      Some (fst r, dlow c t :: dlow c t' :: snd r)
  end.
Fixpoint sqr_hi (c : cfg) (a : list Z) (fuel j : nat) (co : Z) : option (Z * list Z) :=
  match fuel with
  | O => Some (co, [])
  | S f =>   (* while j < DNLEN - 3 *)
      let lo := (j + 2 - NLEN c)%nat in
      t <- sqr_col c a j (NLEN c - 1) (j + 1 - NLEN c) (seq lo ((j + 1) / 2 - lo)) false co ;;
      let j1 := (j + 1)%nat in
      let lo1 := (j1 + 2 - NLEN c)%nat in
      t' <- sqr_col c a j1 (NLEN c - 1) (j1 + 1 - NLEN c) (seq lo1 ((j1 + 1) / 2 - lo1)) true
                   (Z.shiftr t (BASEBITS c)) ;;
      r <- sqr_hi c a f (j + 2) (Z.shiftr t' (BASEBITS c)) ;;
      Some (fst r, dlow c t :: dlow c t' :: snd r)
  end.
(** Loop 1 runs j = 1,3,.. while j < NLEN-1, i.e. (NLEN-1)/2 times, writing columns 1 .. 2*((NLEN-1)/2);
    loop 2 starts at NLEN + NLEN mod 2 - 1 and overwrites a column already written when NLEN is even is
    impossible (NLEN even: loop 1 ends at NLEN-2, loop 2 starts at NLEN-1; NLEN odd: ends NLEN-1, starts NLEN). *)
Definition sqr (c : cfg) (a : list Z) : option (list Z) :=
  let n := NLEN c in
  t <- chk (2 * CHUNK c) (get a 0 * get a 0) ;;
  q1 <- sqr_lo c a ((n - 1) / 2) 1 (Z.shiftr t (BASEBITS c)) ;;
  let j2 := (n + n mod 2 - 1)%nat in
  q2 <- sqr_hi c a ((2 * n - 3 - j2 + 1) / 2) j2 (fst q1) ;;
  x <- chk (2 * CHUNK c) (get a (n - 2) * get a (n - 1)) ;;
  x2 <- chk (2 * CHUNK c) (x + x) ;;
  x3 <- chk (2 * CHUNK c) (x2 + fst q2) ;;
  y <- chk (2 * CHUNK c) (get a (n - 1) * get a (n - 1)) ;;
  y1 <- chk (2 * CHUNK c) (y + Z.shiftr x3 (BASEBITS c)) ;;
  Some (dlow c t :: snd q1 ++ snd q2
        ++ [dlow c x3; dlow c y1; wrap (CHUNK c) (Z.shiftr y1 (BASEBITS c))]).

(** big.rs:956-1003 monty. [v] is built one limb at a time. *)
Fixpoint monty_terms (c : cfg) (v md : list Z) (k : nat) (is : list nat) (t : Z) : option Z :=
  match is with
  | [] => Some t
  | i :: r =>
      x <- chk (CHUNK c) (get v (k - i) - get v i) ;;
      y <- chk (CHUNK c) (get md i - get md (k - i)) ;;
      p <- chk (2 * CHUNK c) (x * y) ;;
      t1 <- chk (2 * CHUNK c) (t + p) ;;
      monty_terms c v md k r t1
  end.
(** v[k] = (((t & rm) as Chunk).wrapping_mul(mc)) & BMASK *)
Definition monty_v (c : cfg) (mc t : Z) : Z :=
  Z.land (wrap (CHUNK c) (dlow c t * mc)) (BMASK c).
(** first loop; returns (v, dd, s, carry) *)
Fixpoint monty_lo (c : cfg) (md : list Z) (mc : Z) (d : list Z) (ks : list nat)
    (v dd : list Z) (s cc : Z) : option (list Z * list Z * Z * Z) :=
  match ks with
  | [] => Some (v, dd, s, cc)
  | k :: r =>
      a0 <- chk (2 * CHUNK c) (cc + s) ;;
      p0 <- chk (2 * CHUNK c) (get v 0 * get md k) ;;
      t0 <- chk (2 * CHUNK c) (a0 + p0) ;;
      t1 <- monty_terms c v md k (seq (1 + k / 2) (k - (1 + k / 2))) t0 ;;
      let vk := monty_v c mc t1 in
      p1 <- chk (2 * CHUNK c) (vk * get md 0) ;;
      t2 <- chk (2 * CHUNK c) (t1 + p1) ;;
      c1 <- chk (2 * CHUNK c) (get d (k + 1) + Z.shiftr t2 (BASEBITS c)) ;;
      ddk <- chk (2 * CHUNK c) (vk * get md k) ;;
      s1 <- chk (2 * CHUNK c) (s + ddk) ;;
      monty_lo c md mc d r (v ++ [vk]) (dd ++ [ddk]) s1 c1
  end.
Fixpoint monty_hi (c : cfg) (md d v dd : list Z) (ks : list nat) (s cc : Z)
  : option (list Z * Z) :=
  match ks with
  | [] => Some ([], cc)
  | k :: r =>
      t0 <- chk (2 * CHUNK c) (cc + s) ;;
      t1 <- monty_terms c v md k (seq (1 + k / 2) (NLEN c - (1 + k / 2))) t0 ;;
      c1 <- chk (2 * CHUNK c) (get d (k + 1) + Z.shiftr t1 (BASEBITS c)) ;;
      s1 <- chk (2 * CHUNK c) (s - get dd (k + 1 - NLEN c)) ;;
      q <- monty_hi c md d v dd r s1 c1 ;;
      Some (dlow c t1 :: fst q, snd q)
  end.
Definition monty (c : cfg) (md : list Z) (mc : Z) (d : list Z) : option (list Z) :=
  let t := get d 0 in
  let v0 := monty_v c mc t in
  p <- chk (2 * CHUNK c) (v0 * get md 0) ;;
  t1 <- chk (2 * CHUNK c) (t + p) ;;
  c0 <- chk (2 * CHUNK c) (get d 1 + Z.shiftr t1 (BASEBITS c)) ;;
  q <- monty_lo c md mc d (seq 1 (NLEN c - 1)) [v0] [0] 0 c0 ;;
  let '(v, dd, s, cc) := q in
  q2 <- monty_hi c md d v dd (seq (NLEN c) (NLEN c - 1)) s cc ;;
  Some (fst q2 ++ [dlow c (snd q2)]).

(** big.rs:1005-1022 ssn: m := m>>1; r := a - m (normalised but the top); returns sign of r.
    Result: (r, m, sign). *)
Fixpoint ssn_loop (c : cfg) (a m : list Z) (carry : Z) : option (list Z * list Z) :=
  match a, m with
  | [x], [y] =>
      let y1 := Z.shiftr y 1 in
      r0 <- chk (CHUNK c) (x - y1) ;;
      r <- chk (CHUNK c) (r0 + carry) ;;
      Some ([r], [y1])
  | x :: a', y :: ((y' :: _) as m') =>
      let y1 := Z.lor (Z.shiftr y 1) (Z.land (wrap (CHUNK c) (Z.shiftl y' (BASEBITS c - 1))) (BMASK c)) in
      r0 <- chk (CHUNK c) (x - y1) ;;
      r <- chk (CHUNK c) (r0 + carry) ;;
      q <- ssn_loop c a' m' (Z.shiftr r (BASEBITS c)) ;;
      Some (Z.land r (BMASK c) :: fst q, y1 :: snd q)
  | _, _ => None
  end.
Definition ssn (c : cfg) (a m : list Z) : option (list Z * list Z * Z) :=
  q <- ssn_loop c a m 0 ;;
  Some (fst q, snd q, signbit c (last (fst q) 0)).

(** big.rs:1027-1065 modmul, modsqr, modneg, powmod *)
Definition modmul (c : cfg) (a1 b1 m : list Z) : option (list Z) :=
  a <- rmod c a1 m ;; b <- rmod c b1 m ;; d <- mul c a b ;; dmod c d m.
Definition modsqr (c : cfg) (a1 m : list Z) : option (list Z) :=
  a <- rmod c a1 m ;; d <- sqr c a ;; dmod c d m.
Definition modneg (c : cfg) (a1 m : list Z) : option (list Z) :=
  a <- rmod c a1 m ;; sub c m a.
Fixpoint powmod_loop (fuel : nat) (c : cfg) (a z s m : list Z) : option (list Z) :=
  match fuel with
  | O => None
  | S f =>
      let bt := parity z in
      zz <- fshr c z 1 ;;
      let z1 := snd zz in
      a1 <- (if bt =? 1 then modmul c a s m else Some a) ;;
      if iszilch z1 then Some a1 else
      s1 <- modsqr c s m ;;
      powmod_loop f c a1 z1 s1 m
  end.
Definition powmod (c : cfg) (self e1 m : list Z) : option (list Z) :=
  s <- norm c self ;;
  e <- norm c e1 ;;
  powmod_loop (S (loop_fuel c e)) c (big_new_int c 1) e s m.

(** big.rs:778-837 invmodp *)
Fixpoint inv_even (fuel : nat) (c : cfg) (p u x : list Z) : option (list Z * list Z) :=
  if parity u =? 0 then
    match fuel with
    | O => None
    | S f =>
        uu <- fshr c u 1 ;;
        x1 <- (if parity x =? 0 then Some x
               else x0 <- add c x p ;; norm c x0) ;;
        xx <- fshr c x1 1 ;;
        inv_even f c p (snd uu) (snd xx)
    end
  else Some (u, x).
Definition inv_sub (c : cfg) (p u v x1 x2 : list Z) : option (list Z * list Z) :=
  (* u -= v; x1 = x1 - x2 mod p *)
  u0 <- sub c u v ;;
  u1 <- norm c u0 ;;
  y <- (if 0 <=? comp x1 x2 then sub c x1 x2
        else t <- sub c p x2 ;; add c x1 t) ;;
  y1 <- norm c y ;;
  Some (u1, y1).
Fixpoint inv_loop (fuel : nat) (c : cfg) (p one u v x1 x2 : list Z) : option (list Z) :=
  if negb (comp u one =? 0) && negb (comp v one =? 0) then
    match fuel with
    | O => None
    | S f =>
        ux <- inv_even (loop_fuel c p) c p u x1 ;;
        vx <- inv_even (loop_fuel c p) c p v x2 ;;
        let '(u, x1) := ux in
        let '(v, x2) := vx in
        if 0 <=? comp u v
        then q <- inv_sub c p u v x1 x2 ;; inv_loop f c p one (fst q) v (snd q) x2
        else q <- inv_sub c p v u x2 x1 ;; inv_loop f c p one u (fst q) x1 (snd q)
    end
  else Some (if comp u one =? 0 then x1 else x2).
Definition invmodp (c : cfg) (self p : list Z) : option (list Z) :=
  u <- rmod c self p ;;
  inv_loop (S (2 * loop_fuel c p)) c p (big_new_int c 1) u p (big_new_int c 1) (big_new c).

(** big.rs:729-773 jacobi *)
Fixpoint jac_strip (fuel : nat) (c : cfg) (x : list Z) (k : Z) : option (list Z * Z) :=
  if parity x =? 0 then
    match fuel with
    | O => None
    | S f => x1 <- shr c x 1 ;; jac_strip f c x1 (k + 1)
    end
  else Some (x, k).
Fixpoint jac_loop (fuel : nat) (c : cfg) (one x n : list Z) (m : Z) : option Z :=
  if 0 <? comp n one then
    if iszilch x then Some 0 else
    match fuel with
    | O => None
    | S f =>
        n8p <- lastbits c n 3 ;;
        let n8 := fst n8p in
        let n := snd n8p in
        xk <- jac_strip (loop_fuel c x) c x 0 ;;
        let '(x, k) := xk in
        let m1 := if Z.rem k 2 =? 1 then m + (n8 * n8 - 1) / 8 else m in
        x4p <- lastbits c x 2 ;;
        let m2 := m1 + (n8 - 1) * (fst x4p - 1) / 4 in
        let x := snd x4p in
        t <- rmod c n x ;;
        jac_loop f c one t x (m2 mod 2)
    end
  else Some (if m =? 0 then 1 else -1).
Definition jacobi (c : cfg) (self p : list Z) : option Z :=
  let one := big_new_int c 1 in
  if (parity p =? 0) || iszilch self || (comp p one <=? 0) then Some 0 else
  s <- norm c self ;;
  x <- rmod c s p ;;
  jac_loop (S (2 * loop_fuel c p)) c one x p 0.

(** big.rs:285-305 tostring (list of hex digit values, most significant first; the
    Rust code prints each with {:X}); 308-321 fromstring *)
Definition hex_len (c : cfg) (bits : Z) : Z := Z.max ((bits + 3) / 4) (2 * MODBYTES c).
Fixpoint hex_loop (c : cfg) (w : list Z) (is : list nat) : option (list Z) :=
  match is with
  | [] => Some []
  | i :: r => b <- shr c w (4 * Z.of_nat i) ;; t <- hex_loop c w r ;; Some (Z.land (get b 0) 15 :: t)
  end.
Definition tostring_digits (c : cfg) (w : list Z) : option (list Z) :=
  n <- nbits c w ;;
  hex_loop c w (rev (seq 0 (Z.to_nat (hex_len c n)))).
Fixpoint fromhex_loop (c : cfg) (ds : list Z) (m : list Z) : option (list Z) :=
  match ds with
  | [] => Some m
  | d :: r => m1 <- shl c m 4 ;; m2 <- add_low c m1 d ;; fromhex_loop c r m2
  end.
(** the empty string panics (&val[0..1]) *)
Definition fromhex_digits (c : cfg) (ds : list Z) : option (list Z) :=
  match ds with
  | [] => None
  | d :: r => m <- add_low c (big_new c) d ;; fromhex_loop c r m
  end.

(** big.rs:694-721 random / randomnum bit loop over an arbitrary bit source: see Model/Rand.v *)
