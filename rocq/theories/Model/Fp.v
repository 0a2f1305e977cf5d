(** Model of /repo/src/fp.rs: prime-field elements with lazy reduction, over any ROM.
    [None] = panic, as in Model/Big.v.  Not modelled: from_hex/to_hex (string parsing). *)
From Verif Require Export Base.Word Model.Big Model.Roms.

(** fp.rs:29-33 *)
Record fp := mkfp { fx : list Z; fxes : Z }.

Section Fp.
Variable r : rom.
Notation c := (r_cfg r).
Notation B := (BASEBITS (r_cfg r)).
Notation C := (CHUNK (r_cfg r)).
Notation N := (NLEN (r_cfg r)).

Definition FEXCESS : Z := 2 ^ r_SH r - 1.                           (* fp.rs:59 *)
Definition TBITS : Z := r_MODBITS r mod B.                          (* fp.rs:61 *)
Definition TMASK : Z := 2 ^ TBITS - 1.                              (* fp.rs:62 *)
Definition special : bool :=                                        (* the test of fp.rs:87,115,329,535 *)
  match r_MODTYPE r with PseudoMersenne | GeneralisedMersenne => true | _ => false end.

(** w[i] := v *)
Definition set_limb (w : list Z) (i : nat) (v : Z) : list Z := firstn i w ++ v :: skipn (S i) w.
(** w[i] += v (checked) *)
Definition add_limb (w : list Z) (i : nat) (v : Z) : option (list Z) :=
  x <- chk C (get w i + v) ;; Some (set_limb w i x).

(** fp.rs:123-188 modulo: reduce a DBig.  The MontgomeryFriendly branch is not modelled (no ROM uses it). *)
Definition fp_modulo (d : list Z) : option (list Z) :=
  match r_MODTYPE r with
  | PseudoMersenne =>
      let (t, dl) := split c d (r_MODBITS r) in
      let b := big_dcopy c dl in
      vt <- pmul c t (r_MCONST r) ;;
      let v := fst vt in
      t1 <- add c (snd vt) b ;;
      t2 <- norm c t1 ;;
      let tw := get t2 (N - 1) in
      let t3 := set_limb t2 (N - 1) (Z.land tw TMASK) in
      e <- chk C (Z.shiftr tw TBITS + wrap C (Z.shiftl v (B - TBITS))) ;;
      m <- chk C (r_MCONST r * e) ;;
      t4 <- add_limb t3 0 m ;;
      norm c t4
  | GeneralisedMersenne =>
      let (t, dl) := split c d (r_MODBITS r) in
      let rm2 := r_MODBITS r / 2 in
      b <- add c (big_dcopy c dl) t ;;
      dd <- dshl c (scopy c t) rm2 ;;
      let (tt, ddl) := split c dd (r_MODBITS r) in
      let lo := big_dcopy c ddl in
      b <- add c b tt ;;
      b <- add c b lo ;;
      b <- norm c b ;;
      tt <- shl c tt rm2 ;;
      b <- add c b tt ;;
      let carry := Z.shiftr (get b (N - 1)) TBITS in
      let b := set_limb b (N - 1) (Z.land (get b (N - 1)) TMASK) in
      b <- add_limb b 0 carry ;;
      b <- add_limb b (Z.to_nat (224 / B)) (wrap C (Z.shiftl carry (224 mod B))) ;;
      norm c b
  | NotSpecial => monty c (r_MODULUS r) (r_MCONST r) d
  | MontgomeryFriendly => None
  end.

(** fp.rs:86-95 nres; 65-84 new, new_int, new_big *)
Definition fp_nres (x : list Z) : option fp :=
  if special then Some (mkfp x 1)
  else d <- mul c x (r_R2MODP r) ;; y <- fp_modulo d ;; Some (mkfp y 2).
Definition fp_new : fp := mkfp (big_new c) 1.
Definition fp_new_big (x : list Z) : option fp := fp_nres x.
Definition fp_new_int (a : Z) : option fp := x <- inc c (big_new c) a ;; fp_nres x.
Definition fp_one : option fp := fp_nres (big_one c).               (* fp.rs:245-248 *)
Definition fp_zero : fp := fp_new.                                  (* fp.rs:239-242 *)

(** fp.rs:114-120 redc *)
Definition fp_redc (f : fp) : option (list Z) :=
  if special then Some (fx f) else fp_modulo (scopy c (fx f)).

(** fp.rs:285-296 logb2, u32 arithmetic *)
Definition smear (v s : Z) : Z := Z.lor v (Z.shiftr v s).
Definition popcount32 (v : Z) : Z :=
  let v := wrapu 32 (v - Z.land (Z.shiftr v 1) 0x55555555) in
  let v := Z.land v 0x33333333 + Z.land (Z.shiftr v 2) 0x33333333 in
  Z.shiftr (wrapu 32 (Z.land (v + Z.shiftr v 4) 0xF0F0F0F * 0x1010101)) 24.
Definition logb2 (w : Z) : Z :=
  popcount32 (smear (smear (smear (smear (smear w 1) 2) 4) 8) 16).

(** fp.rs:301-315 quo *)
Definition fp_quo (n m : list Z) : option Z :=
  let hb := C / 2 in
  let nt := get n (N - 1) in let mt := get m (N - 1) in
  if TBITS <? hb then
    let sh := hb - TBITS in
    let num := Z.lor (wrap C (Z.shiftl nt sh)) (Z.shiftr (get n (N - 2)) (B - sh)) in
    let den := Z.lor (wrap C (Z.shiftl mt sh)) (Z.shiftr (get m (N - 2)) (B - sh)) in
    d <- chk C (den + 1) ;; if d =? 0 then None else Some (Z.quot num d)
  else d <- chk C (mt + 1) ;; if d =? 0 then None else Some (Z.quot nt d).

(** the loop of fp.rs:215-219 *)
Fixpoint red_loop (sb : nat) (x m : list Z) : option (list Z) :=
  match sb with
  | O => Some x
  | S k =>
      q <- ssn c x m ;;
      let '(t, m1, sr) := q in
      x1 <- cmove c x t (1 - sr) ;;
      red_loop k x1 m1
  end.
(** fp.rs:196-222 reduce *)
Definition fp_reduce (f : fp) : option fp :=
  let m := r_MODULUS r in
  x <- norm c (fx f) ;;
  xs <- (if 16 <? fxes f then
           q <- fp_quo x m ;;
           cr <- pmul c m q ;;
           rr <- add_limb (snd cr) (N - 1) (wrap C (Z.shiftl (fst cr) B)) ;;
           x1 <- sub c x rr ;;
           x2 <- norm c x1 ;;
           Some (x2, 2)
         else e <- chk 32 (fxes f - 1) ;; Some (x, logb2 (wrapu 32 e))) ;;
  m2 <- fshl c m (snd xs) ;;
  y <- red_loop (Z.to_nat (snd xs)) (fst xs) m2 ;;
  Some (mkfp y 1).

(** fp.rs:225-229 iszilch; 251-253 norm *)
Definition fp_iszilch (f : fp) : option bool := a <- fp_reduce f ;; Some (iszilch (fx a)).
Definition fp_norm (f : fp) : option fp := x <- norm c (fx f) ;; Some (mkfp x (fxes f)).

(** fp.rs:256-270 cswap, cmove *)
Definition fp_cswap (a b : fp) (d : Z) : option (fp * fp) :=
  xs <- cswap c (fx a) (fx b) d ;;
  m <- chk 32 (wrap 32 d - 1) ;;
  let t := Z.land (Z.lnot m) (Z.lxor (fxes a) (fxes b)) in
  Some (mkfp (fst xs) (Z.lxor (fxes a) t), mkfp (snd xs) (Z.lxor (fxes b) t)).
Definition fp_cmove (a b : fp) (d : Z) : option fp :=
  x <- cmove c (fx a) (fx b) d ;;
  m <- chk 32 (- wrap 32 d) ;;
  Some (mkfp x (Z.lxor (fxes a) (Z.land (Z.lxor (fxes a) (fxes b)) m))).

(** fp.rs:273-281 mul; 361-369 sqr *)
Definition fp_mul (a b : fp) : option fp :=
  a1 <- (if FEXCESS <? fxes a * fxes b then fp_reduce a else Some a) ;;
  d <- mul c (fx a1) (fx b) ;;
  x <- fp_modulo d ;;
  Some (mkfp x 2).
Definition fp_sqr (a : fp) : option fp :=
  a1 <- (if FEXCESS <? fxes a * fxes a then fp_reduce a else Some a) ;;
  d <- sqr c (fx a1) ;;
  x <- fp_modulo d ;;
  Some (mkfp x 2).

(** fp.rs:318-328 neg.  [1 << sb+1] on i32 panics when sb+1 >= 32 *)
Definition fp_over (f : fp) : option fp := if FEXCESS <? fxes f then fp_reduce f else Some f.
Definition fp_neg (f : fp) : option fp :=
  e <- chk 32 (fxes f - 1) ;;
  let sb := logb2 (wrapu 32 e) in
  p <- fshl c (r_MODULUS r) sb ;;
  x <- rsub c (fx f) p ;;
  if 32 <=? sb + 1 then None else fp_over (mkfp x (wrap 32 (Z.shiftl 1 (sb + 1)))).

(** fp.rs:372-378 add; 381-387 dbl; 390-394 sub; 397-400 rsub *)
Definition fp_add (a b : fp) : option fp :=
  x <- add c (fx a) (fx b) ;;
  e <- chk 32 (fxes a + fxes b) ;;
  fp_over (mkfp x e).
Definition fp_dbl (a : fp) : option fp :=
  x <- dbl c (fx a) ;;
  e <- chk 32 (fxes a + fxes a) ;;
  fp_over (mkfp x e).
Definition fp_sub (a b : fp) : option fp := n <- fp_neg b ;; fp_add a n.
Definition fp_rsub (a b : fp) : option fp := n <- fp_neg a ;; fp_add n b.

(** fp.rs:331-358 imul; [cc as i32] truncates on 64-bit targets *)
Definition fp_imul (a : fp) (k : Z) : option fp :=
  cc <- (if k <? 0 then chk C (- k) else Some k) ;;
  y <- (if special then
          d <- pxmul c (fx a) cc ;; x <- fp_modulo d ;; Some (mkfp x 2)
        else
          e <- chk 32 (fxes a * wrap 32 cc) ;;
          if e <=? FEXCESS then
            t <- pmul c (fx a) cc ;; Some (mkfp (snd t) e)
          else
            n <- fp_new_int cc ;; fp_mul a n) ;;
  if k <? 0 then z <- fp_neg y ;; fp_norm z else Some y.

(** fp.rs:403-412 div2 *)
Definition fp_div2 (a : fp) : option fp :=
  x <- (if parity (fx a) =? 0 then Some (fx a)
        else y <- add c (fx a) (r_MODULUS r) ;; norm c y) ;;
  q <- fshr c x 1 ;;
  Some (mkfp (snd q) (fxes a)).

(** fp.rs:560-572 equals *)
Definition fp_equals (a b : fp) : option bool :=
  f <- fp_reduce a ;; s <- fp_reduce b ;; Some (comp (fx f) (fx s) =? 0).

(** fp.rs:575-625 pow: 4-bit fixed window; digits least significant first *)
Fixpoint pow_digits (n : nat) (t : list Z) : option (list Z) :=
  match n with
  | O => Some []
  | S k =>
      p <- lastbits c t 4 ;;
      t1 <- dec c (snd p) (fst p) ;;
      t2 <- norm c t1 ;;
      q <- fshr c t2 4 ;;
      ds <- pow_digits k (snd q) ;;
      Some (fst p :: ds)
  end.
Fixpoint pow_table (n : nat) (last : fp) (x : fp) : option (list fp) :=   (* tb[i] = tb[i-1]*x *)
  match n with
  | O => Some []
  | S k => y <- fp_mul last x ;; ys <- pow_table k y x ;; Some (y :: ys)
  end.
Fixpoint pow_loop (tb : list fp) (ds : list Z) (acc : fp) : option fp :=    (* ds most significant first *)
  match ds with
  | [] => Some acc
  | d :: t =>
      a <- fp_sqr acc ;; a <- fp_sqr a ;; a <- fp_sqr a ;; a <- fp_sqr a ;;
      y <- nth_error tb (Z.to_nat d) ;;
      a <- fp_mul a y ;;
      pow_loop tb t a
  end.
Definition fp_pow (f : fp) (e : list Z) : option fp :=
  x <- fp_norm f ;;
  t <- norm c e ;;
  n <- nbits c t ;;
  let nb := Z.to_nat (1 + (n + 3) / 4) in
  ds <- pow_digits nb t ;;
  one <- fp_one ;;
  tl <- pow_table 14 x x ;;
  let tb := one :: x :: tl in
  match rev ds with
  | [] => None
  | d :: rest => y <- nth_error tb (Z.to_nat d) ;; a <- pow_loop tb rest y ;; fp_reduce a
  end.

(** fp.rs:417-530 fpow: addition chain, written over any carrier so that its exponent can be computed *)
Section Chain.
Context {A : Type}.
Variables (sq : A -> option A) (mu : A -> A -> option A).
Definition ac : list Z := [1; 2; 3; 6; 12; 15; 30; 60; 120; 240; 255].
(** phase 1 table: xp[0..10] *)
Definition chain1 (x : A) : option (list A) :=
  x2 <- sq x ;; x3 <- mu x2 x ;; x6 <- sq x3 ;; x12 <- sq x6 ;; x15 <- mu x12 x3 ;;
  x30 <- sq x15 ;; x60 <- sq x30 ;; x120 <- sq x60 ;; x240 <- sq x120 ;; x255 <- mu x240 x15 ;;
  Some [x; x2; x3; x6; x12; x15; x30; x60; x120; x240; x255].
(** while w < c: returns (w, bw) *)
Fixpoint pow2_above (fuel : nat) (cc w : Z) (bw : nat) : option (Z * nat) :=
  if w <? cc then match fuel with O => None | S f => pow2_above f cc (2 * w) (S bw) end
  else Some (w, bw).
(** first loop of 483-486: largest i <= 10 with ac[i] <= k *)
Fixpoint key_first (i : nat) (k : Z) : option nat :=
  if k <? nth i ac 0 then match i with O => None | S j => key_first j k end else Some i.
(** 490-497 *)
Fixpoint key_loop (i : nat) (xp : list A) (key : A) (k : Z) : option A :=
  if k =? 0 then Some key else
  match i with
  | O => None
  | S j => if k <? nth j ac 0 then key_loop j xp key k
           else y <- nth_error xp j ;; key' <- mu key y ;; key_loop j xp key' (k - nth j ac 0)
  end.
Fixpoint sqn (n : nat) (x : A) : option A :=
  match n with O => Some x | S k => y <- sq x ;; sqn k y end.
(** 508-519: table of x^(2^m-1) for m = 1,2,4,..; [top] = last entry, entries most recent first *)
Fixpoint chain2 (fuel : nat) (m nw : Z) (tops : list A) : option (Z * list A) :=
  if 2 * m <? nw then
    match fuel, tops with
    | S f, t :: _ => s <- sqn (Z.to_nat m) t ;; y <- mu t s ;; chain2 f (2 * m) nw (y :: tops)
    | _, _ => None
    end
  else Some (m, tops).
(** 523-536 *)
Fixpoint chain3 (fuel : nat) (m lo : Z) (tops : list A) (acc : A) : option A :=
  if lo =? 0 then Some acc else
  match fuel, tops with
  | S f, t :: ts =>
      let m1 := m / 2 in
      if lo <? m1 then chain3 f m1 lo ts acc
      else s <- sqn (Z.to_nat m1) acc ;; a <- mu s t ;; chain3 f m1 (lo - m1) ts a
  | _, _ => None
  end.
Definition fpow_gen (x : A) : option A :=
  xp <- chain1 x ;;
  let n0 := match r_MODTYPE r with GeneralisedMersenne => r_MODBITS r / 2 | _ => r_MODBITS r end in
  let n := if r_MOD8 r =? 5 then n0 - 3 else n0 - 2 in
  let cc := if r_MOD8 r =? 5 then (r_MCONST r + 5) / 8 else (r_MCONST r + 3) / 4 in
  wb <- pow2_above (Z.to_nat C) cc 1 0 ;;
  let bw := snd wb in
  let k := fst wb - cc in
  key <- (if k =? 0 then Some None
          else i <- key_first 10 k ;; y <- nth_error xp i ;; z <- key_loop i xp y (k - nth i ac 0) ;; Some (Some z)) ;;
  x3 <- nth_error xp 2 ;; x15 <- nth_error xp 5 ;; x255 <- nth_error xp 10 ;;
  let nw := n - Z.of_nat bw in
  mt <- chain2 (Z.to_nat (r_MODBITS r)) 8 nw [x255; x15; x3; x] ;;
  match snd mt with
  | t :: ts =>
      a <- chain3 (Z.to_nat (r_MODBITS r)) (fst mt) (nw - fst mt) ts t ;;
      a <- (if Nat.eqb bw 0 then Some a
            else s <- sqn bw a ;; match key with Some y => mu s y | None => None end) ;;
      match r_MODTYPE r with
      | GeneralisedMersenne =>
          s <- sq a ;; s <- mu s x ;; s <- sqn (Z.to_nat (n + 1)) s ;; mu s a
      | _ => Some a
      end
  | [] => None
  end.
End Chain.
Definition fp_fpow (f : fp) : option fp := fpow_gen fp_sqr fp_mul f.

(** fp.rs:533-557 inverse *)
Definition fp_inverse (f : fp) : option fp :=
  if special then
    y <- fp_fpow f ;;
    if r_MOD8 r =? 5 then
      t <- fp_sqr f ;; s <- fp_mul f t ;; y <- fp_sqr y ;; y <- fp_sqr y ;; y <- fp_sqr y ;; fp_mul s y
    else y <- fp_sqr y ;; y <- fp_sqr y ;; fp_mul f y
  else
    m2 <- dec c (r_MODULUS r) 2 ;; m2 <- norm c m2 ;; fp_pow f m2.

(** fp.rs:628-670 sqrt *)
Definition fp_sqrt (f0 : fp) : option fp :=
  f <- fp_reduce f0 ;;
  if r_MOD8 r =? 5 then
    ix <- shl c (fx f) 1 ;;
    let i := mkfp ix (fxes f) in
    iv <- (if special then v <- fp_fpow i ;; Some (i, v)
           else p <- dec c (r_MODULUS r) 5 ;; p <- norm c p ;; p <- shr c p 3 ;;
                i' <- fp_norm i ;; v <- fp_pow i p ;; Some (i', v)) ;;
    let '(i, v) := iv in
    i <- fp_mul i v ;; i <- fp_mul i v ;;
    ix <- dec c (fx i) 1 ;;
    let i := mkfp ix (fxes i) in
    a <- fp_mul f v ;; a <- fp_mul a i ;; fp_reduce a
  else
    if special then y <- fp_fpow f ;; fp_mul y f
    else p <- inc c (r_MODULUS r) 1 ;; p <- norm c p ;; p <- shr c p 2 ;; fp_pow f p.

(** fp.rs:687-694 sgn0 *)
Definition fp_sgn0 (f : fp) : option bool := x <- fp_redc f ;; Some (negb (parity x =? 0)).
End Fp.
