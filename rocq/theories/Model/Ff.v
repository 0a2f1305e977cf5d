(** Model of /repo/src/ff.rs (multi-Big integers for RSA) and of encrypt/decrypt of
    /repo/src/rsa.rs.  An [FF] is the list of its Bigs v[0..length-1], least significant
    first.  [None] = panic (overflow in a checked build, bad index) or endless loop.

    Simplification: karmul, karsqr, karmul_lower and karmul_upper work in place on slices
    [vp..] of the result and of a scratch FF [t]; every scratch slot is written before it is
    read and the slices handed to a recursive call are disjoint from the live ones, so the
    model returns the written slice as a value.  n (a power of two: "must be 256.2^n",
    ff.rs:34) is given as its logarithm k. *)
From Verif Require Export Base.Word Model.Big.

Definition ff := list (list Z).

Definition FT (c : cfg) : Z := (8 * MODBYTES c) mod BASEBITS c.             (* ff.rs:40 P_TBITS *)
Definition FEXC (c : cfg) : Z :=                                             (* ff.rs:39 P_FEXCESS *)
  2 ^ (BASEBITS c * Z.of_nat (NLEN c) - 8 * MODBYTES c - 1).

(* ff.rs:48-50 excess; P_OMASK = -1 << P_TBITS (ff.rs:38) *)
Definition ff_excess (c : cfg) (a : list Z) : option Z :=
  chk (CHUNK c) (Z.shiftr (Z.land (get a (NLEN c - 1)) (Z.shiftl (-1) (FT c))) (FT c) + 1).
(* ff.rs:52-68 pexceed, sexceed *)
Definition pexceed (c : cfg) (a b : list Z) : option bool :=
  ea <- ff_excess c a ;; eb <- ff_excess c b ;;
  ea1 <- chk (CHUNK c) (ea + 1) ;; eb1 <- chk (CHUNK c) (eb + 1) ;;
  p <- chk (2 * CHUNK c) (ea1 * eb1) ;; Some (FEXC c <? p).
Definition sexceed (c : cfg) (a : list Z) : option bool := pexceed c a a.

(* ff.rs:71-81 new_int; 83-87 zero *)
Definition ff_zero (c : cfg) (n : nat) : ff := repeat (big_new c) n.
(* ff.rs:128-133 one *)
Definition ff_one (c : cfg) (n : nat) : ff := big_one c :: repeat (big_new c) (n - 1).
(* ff.rs:94-97 set *)
Definition ff_set (c : cfg) (n : nat) (m : Z) : ff := (wrap (CHUNK c) m :: repeat 0 (NLEN c - 1)) :: repeat (big_new c) (n - 1).
(* ff.rs:100-104 copy: self has length n; b must not be shorter *)
Definition ff_copy (n : nat) (b : ff) : option ff :=
  if (n <=? length b)%nat then Some (firstn n b) else None.
(* ff.rs:107-112 dsucopy (x = y << n), 115-120 dscopy (x = y): self has length 2n *)
Definition dsucopy (c : cfg) (b : ff) : ff := ff_zero c (length b) ++ b.
Definition dscopy (c : cfg) (b : ff) : ff := b ++ ff_zero c (length b).
(* ff.rs:123-127 sducopy: self has length n *)
Definition sducopy (n : nat) (b : ff) : option ff :=
  if (2 * n <=? length b)%nat then Some (firstn n (skipn n b)) else None.
(* ff.rs:147-160 shrw, shlw *)
Definition shrw (c : cfg) (n : nat) (f : ff) : option ff :=
  if (2 * n <=? length f)%nat then Some (firstn n (skipn n f) ++ ff_zero c n ++ skipn (2 * n) f) else None.
Definition shlw (c : cfg) (n : nat) (f : ff) : option ff :=
  if (2 * n <=? length f)%nat then Some (ff_zero c n ++ firstn n f ++ skipn (2 * n) f) else None.
(* ff.rs:163-165 parity *)
Definition ff_parity (f : ff) : Z := parity (nth 0 f []).

(* ff.rs:172-187 comp: from the top Big down *)
Fixpoint ff_comp (a b : ff) : Z :=
  match a, b with
  | x :: a', y :: b' => let r := ff_comp a' b' in if r =? 0 then comp x y else r
  | _, _ => 0
  end.

(* the Big-wise loops of ff.rs:190-253 (radd, rinc, rsub, rdec, add, sub, revsub); b must not be shorter *)
Fixpoint ffmap2 (op : list Z -> list Z -> option (list Z)) (a b : ff) : option ff :=
  match a, b with
  | [], _ => Some []
  | _ :: _, [] => None
  | x :: a', y :: b' => z <- op x y ;; r <- ffmap2 op a' b' ;; Some (z :: r)
  end.
Definition ff_add (c : cfg) := ffmap2 (add c).
Definition ff_sub (c : cfg) := ffmap2 (sub c).
Definition ff_rsub (c : cfg) := ffmap2 (rsub c).

(* big.rs:122-124 xortop *)
Definition xortop (c : cfg) (w : list Z) (x : Z) : list Z :=
  firstn (NLEN c - 1) w ++ [Z.lxor (get w (NLEN c - 1)) x].
(* ff.rs:255-275 rnorm; [carry] is what the previous Big added to w[0] (0 for the first) *)
Fixpoint rnorm_loop (c : cfg) (trunc : bool) (f : ff) (carry : Z) : option ff :=
  match f with
  | [] => Some []
  | x :: t =>
      x1 <- add_low c x carry ;;
      y <- norm c x1 ;;
      let e := excess_of c y in
      let y' := xortop c y (wrap (CHUNK c) (Z.shiftl e (FT c))) in
      match t with
      | [] => Some [if trunc then y' else y]
      | _ => r <- rnorm_loop c trunc t e ;; Some (y' :: r)
      end
  end.
Definition rnorm (c : cfg) (trunc : bool) (f : ff) : option ff :=
  match f with [] => None | _ => rnorm_loop c trunc f 0 end.
Definition ff_norm (c : cfg) := rnorm c false.                               (* ff.rs:277-280 *)
(* ff.rs:283-291 inc, dec *)
Definition ff_inc (c : cfg) (f : ff) (m : Z) : option ff :=
  match f with [] => None | x :: t => y <- inc c x m ;; ff_norm c (y :: t) end.
Definition ff_dec (c : cfg) (f : ff) (m : Z) : option ff :=
  match f with [] => None | x :: t => y <- dec c x m ;; ff_norm c (y :: t) end.

(* ff.rs:294-304 shl; [d] is delay_carry *)
Fixpoint ff_shl_loop (c : cfg) (f : ff) (d : Z) : option ff :=
  match f with
  | [] => Some []
  | x :: t =>
      y <- fshl c x 1 ;;
      let carry := excess_of c y in
      z <- inc c y d ;;
      match t with
      | [] => Some [z]
      | _ => r <- ff_shl_loop c t carry ;;
             Some (xortop c z (wrap (CHUNK c) (Z.shiftl carry (FT c))) :: r)
      end
  end.
Definition ff_shl (c : cfg) (f : ff) : option ff := ff_shl_loop c f 0.
(* ff.rs:308-316 shr; the loop runs from the top Big, which hands its low bit to the Big below *)
Fixpoint ff_shr_loop (c : cfg) (f : ff) : option (Z * ff) :=
  match f with
  | [] => Some (0, [])
  | x :: t =>
      p <- ff_shr_loop c t ;;
      let x' := match t with [] => x | _ => xortop c x (wrap (CHUNK c) (Z.shiftl (fst p) (FT c))) end in
      q <- fshr c x' 1 ;;
      Some (fst q, snd q :: snd p)
  end.
Definition ff_shr (c : cfg) (f : ff) : option ff := p <- ff_shr_loop c f ;; Some (snd p).

(* ff.rs:334-338 tobytes; 340-344 frombytes *)
Fixpoint ff_tobytes_loop (c : cfg) (f : ff) (b : list Z) : option (list Z) :=
  match f with
  | [] => Some b
  | x :: t => b1 <- tobytearray c x b (length t * Z.to_nat (MODBYTES c)) ;; ff_tobytes_loop c t b1
  end.
Definition ff_tobytes (c : cfg) (f : ff) (b : list Z) : option (list Z) := ff_tobytes_loop c f b.
Fixpoint ff_frombytes (c : cfg) (n : nat) (b : list Z) : option ff :=
  match n with
  | O => Some []
  | S m => x <- frombytearray c b (m * Z.to_nat (MODBYTES c)) ;; t <- ff_frombytes c m b ;; Some (x :: t)
  end.
(* ff.rs:347-351 cswap *)
Fixpoint ff_cswap (c : cfg) (a b : ff) (d : Z) : option (ff * ff) :=
  match a, b with
  | [], _ => Some ([], b)
  | _ :: _, [] => None
  | x :: a', y :: b' =>
      p <- cswap c x y d ;; q <- ff_cswap c a' b' d ;;
      Some (fst p :: fst q, snd p :: snd q)
  end.

(* ff.rs:354-393 karmul *)
Fixpoint karmul (c : cfg) (k : nat) (x y : ff) : option ff :=
  match k with
  | O =>
      d <- mul c (nth 0 x []) (nth 0 y []) ;;
      let (hi, lo) := split c d (8 * MODBYTES c) in
      Some [big_dcopy c lo; hi]
  | S k' =>
      let h := (2 ^ k')%nat in
      let x0 := firstn h x in let x1 := firstn h (skipn h x) in
      let y0 := firstn h y in let y1 := firstn h (skipn h y) in
      xs0 <- ff_add c x0 x1 ;; xs <- rnorm c false xs0 ;;
      ys0 <- ff_add c y0 y1 ;; ys <- rnorm c false ys0 ;;
      t <- karmul c k' xs ys ;;
      z0 <- karmul c k' x0 y0 ;;
      z1 <- karmul c k' x1 y1 ;;
      t <- ff_sub c t z0 ;;
      t <- ff_sub c t z1 ;;
      m <- ff_add c (skipn h z0 ++ firstn h z1) t ;;
      rnorm c false (firstn h z0 ++ m ++ skipn h z1)
  end.
(* ff.rs:395-414 karsqr *)
Fixpoint karsqr (c : cfg) (k : nat) (x : ff) : option ff :=
  match k with
  | O =>
      d <- sqr c (nth 0 x []) ;;
      let (hi, lo) := split c d (8 * MODBYTES c) in
      Some [big_dcopy c lo; hi]
  | S k' =>
      let h := (2 ^ k')%nat in
      let x0 := firstn h x in let x1 := firstn h (skipn h x) in
      z0 <- karsqr c k' x0 ;;
      z1 <- karsqr c k' x1 ;;
      t <- karmul c k' x0 x1 ;;
      m <- ff_add c (skipn h z0 ++ firstn h z1) t ;;
      m <- ff_add c m t ;;
      m <- rnorm c false m ;;
      Some (firstn h z0 ++ m ++ skipn h z1)
  end.
(* ff.rs:417-444 karmul_lower *)
Fixpoint karmul_lower (c : cfg) (k : nat) (x y : ff) : option ff :=
  match k with
  | O => z <- smul c (nth 0 x []) (nth 0 y []) ;; Some [z]
  | S k' =>
      let h := (2 ^ k')%nat in
      let x0 := firstn h x in let x1 := firstn h (skipn h x) in
      let y0 := firstn h y in let y1 := firstn h (skipn h y) in
      z0 <- karmul c k' x0 y0 ;;
      t <- karmul_lower c k' x1 y0 ;;
      m <- ff_add c (skipn h z0) t ;;
      t <- karmul_lower c k' x0 y1 ;;
      m <- ff_add c m t ;;
      m <- rnorm c true m ;;
      Some (firstn h z0 ++ m)
  end.
(* ff.rs:447-475 karmul_upper, n = 2^(k'+1); [z] is self[0..n], the low half of x*y; returns self[0..2n] *)
Definition karmul_upper (c : cfg) (k' : nat) (z x y : ff) : option ff :=
  let h := (2 ^ k')%nat in
  let n := (2 ^ S k')%nat in
  let x0 := firstn h x in let x1 := firstn h (skipn h x) in
  let y0 := firstn h y in let y1 := firstn h (skipn h y) in
  xs0 <- ff_add c x0 x1 ;; ys0 <- ff_add c y0 y1 ;;
  xs <- rnorm c false xs0 ;; ys <- rnorm c false ys0 ;;
  t <- karmul c k' ys xs ;;
  zh <- karmul c k' x1 y1 ;;
  t <- ff_sub c t zh ;;
  m <- ff_add c (firstn h (skipn h z)) (firstn h z) ;;
  m <- ff_sub c m (firstn h t) ;;
  zl <- rnorm c true (firstn h z ++ m) ;;
  t <- ff_sub c t zl ;;
  m <- ff_add c (skipn h zl ++ firstn h zh) t ;;
  m <- rnorm c false m ;;
  Some (firstn h zl ++ m ++ skipn h zh).

(* ff.rs:478-484 mul *)
Definition ff_mul (c : cfg) (x y : ff) : option ff := karmul c (Nat.log2 (length x)) x y.
(* ff.rs:487-493 lmul *)
Definition ff_lmul (c : cfg) (x y : ff) : option ff := karmul_lower c (Nat.log2 (length x)) x y.
(* ff.rs:523-529 sqr *)
Definition ff_sqr (c : cfg) (x : ff) : option ff := karsqr c (Nat.log2 (length x)) x.

(* ff.rs:496-520 rmod; m = 0 never leaves the doubling loop *)
Fixpoint ffrmod_up (fuel : nat) (c : cfg) (s m : ff) (k : nat) : option (ff * nat) :=
  match fuel with
  | O => None
  | S f =>
      if 0 <=? ff_comp s m then m1 <- ff_shl c m ;; ffrmod_up f c s m1 (S k) else Some (m, k)
  end.
(* one round: m >>= 1, subtract if possible *)
Definition ff_cond_sub (c : cfg) (s m : ff) : option ff :=
  if 0 <=? ff_comp s m then d <- ff_sub c s m ;; ff_norm c d else Some s.
Fixpoint ff_down (c : cfg) (k : nat) (s m : ff) : option ff :=
  match k with
  | O => Some s
  | S k' => m1 <- ff_shr c m ;; s1 <- ff_cond_sub c s m1 ;; ff_down c k' s1 m1
  end.
Definition ff_fuel (c : cfg) (n : nat) : nat := Z.to_nat (BASEBITS c * Z.of_nat (NLEN c) * Z.of_nat n + 2).
Definition ff_rmod (c : cfg) (s m : ff) : option ff :=
  s1 <- ff_norm c s ;;
  if ff_comp s1 m <? 0 then Some s1 else
  m1 <- ff_shl c m ;;
  p <- ffrmod_up (ff_fuel c (length m)) c s1 m1 1 ;;
  ff_down c (snd p) s1 (fst p).

(* ff.rs:532-551 reduce *)
Definition ff_reduce (c : cfg) (d ms md : ff) : option ff :=
  let n := length ms in
  r <- sducopy n d ;;
  m <- karmul_lower c (Nat.log2 n) (firstn n d) md ;;
  match Nat.log2 n with
  | O => None    (* not used with n = 1 *)
  | S k' =>
      z <- karmul_upper c k' (firstn n d) ms m ;;
      u <- sducopy n z ;;
      r1 <- ff_add c r ms ;;
      r2 <- ff_sub c r1 u ;;
      ff_norm c r2
  end.

(* the number of times the subtraction loop of dmod can run, plus one: only a termination bound *)
Fixpoint ff_val (c : cfg) (f : ff) : Z :=
  match f with
  | [] => 0
  | x :: t => fold_right (fun l a => l + 2 ^ BASEBITS c * a) 0 x + 2 ^ (8 * MODBYTES c) * ff_val c t
  end.
Fixpoint ff_subs (fuel : nat) (c : cfg) (x m : ff) : option ff :=
  match fuel with
  | O => None
  | S f => if 0 <=? ff_comp x m then d <- ff_sub c x m ;; x1 <- ff_norm c d ;; ff_subs f c x1 m else Some x
  end.
(* ff.rs:556-588 dmod: self has length 2n *)
Definition ff_dmod (c : cfg) (d b : ff) : option ff :=
  let n := length b in
  x0 <- ff_copy (2 * n) d ;;
  x1 <- ff_norm c x0 ;;
  let m := dsucopy c b in
  x2 <- ff_subs (S (Z.to_nat (ff_val c x1 / ff_val c m))) c x1 m ;;
  x3 <- ff_down c (Z.to_nat (BIGBITS c) * n) x2 m ;;
  ff_rmod c (firstn n x3) b.

(* ff.rs:653-665 nres *)
Definition ff_nres (c : cfg) (s m : ff) : option ff :=
  match m with
  | [m0] =>
      d <- dshl c (scopy c (nth 0 s [])) (Z.of_nat (NLEN c) * BASEBITS c) ;;
      r <- dmod c d m0 ;; Some [r]
  | _ => ff_dmod c (dsucopy c s) m
  end.
(* the Montgomery constant handed to Big::monty: (1 << BASEBITS) - md.v[0].w[0] *)
Definition ff_mc (c : cfg) (md : ff) : option Z := chk (CHUNK c) (2 ^ BASEBITS c - get (nth 0 md []) 0).
(* ff.rs:667-684 redc *)
Definition ff_redc (c : cfg) (s m md : ff) : option ff :=
  match m with
  | [m0] =>
      mc <- ff_mc c md ;;
      r <- monty c m0 mc (scopy c (nth 0 s [])) ;; Some [r]
  | _ =>
      s1 <- ff_rmod c s m ;;
      r <- ff_reduce c (dscopy c s1) m md ;;
      ff_rmod c r m
  end.
(* ff.rs:686-690 mod2m *)
Definition ff_mod2m (c : cfg) (m : nat) (f : ff) : ff := firstn m f ++ ff_zero c (length f - m).
(* ff.rs:693-732 invmod2m; the loop runs over i = 1, 2, 4, ... < n *)
Fixpoint ffinv_loop (fuel : nat) (c : cfg) (self u : ff) (i : nat) : option ff :=
  let n := length self in
  if (i <? n)%nat then
    match fuel with
    | O => None
    | S f =>
        t <- ff_mul c u (ff_mod2m c i self) ;;
        t <- shrw c i t ;;
        b <- ff_copy n t ;;
        cc <- shrw c i self ;;
        cc <- ff_lmul c (ff_mod2m c i cc) u ;;
        b <- ff_add c b (ff_mod2m c i cc) ;;
        b <- ff_norm c b ;;
        b <- ff_lmul c b u ;;
        let b := ff_mod2m c i b in
        cc <- shlw c i (ff_one c n) ;;
        b <- ff_rsub c b cc ;;
        b <- ff_norm c b ;;
        b <- shlw c i b ;;
        u <- ff_add c u b ;;
        ffinv_loop f c self u (2 * i)
    end
  else Some u.
Definition ff_invmod2m (c : cfg) (self : ff) : option ff :=
  u0 <- invmod2m c (nth 0 self []) ;;
  u <- ffinv_loop (length self) c self (u0 :: ff_zero c (length self - 1)) 1 ;;
  ff_norm c u.

(* ff.rs:757-776 modmul *)
Definition ff_modmul (c : cfg) (x y p nd : ff) : option ff :=
  b <- pexceed c (last x []) (last y []) ;;
  x1 <- (if b then ff_rmod c x p else Some x) ;;
  match p with
  | [p0] =>
      d <- mul c (nth 0 x1 []) (nth 0 y []) ;;
      mc <- ff_mc c nd ;;
      r <- monty c p0 mc d ;; Some [r]
  | _ => d <- ff_mul c x1 y ;; ff_reduce c d p nd
  end.
(* ff.rs:779-798 modsqr *)
Definition ff_modsqr (c : cfg) (x p nd : ff) : option ff :=
  b <- sexceed c (last x []) ;;
  x1 <- (if b then ff_rmod c x p else Some x) ;;
  match p with
  | [p0] =>
      d <- sqr c (nth 0 x1 []) ;;
      mc <- ff_mc c nd ;;
      r <- monty c p0 mc d ;; Some [r]
  | _ => d <- ff_sqr c x1 ;; d <- ff_norm c d ;; ff_reduce c d p nd
  end.

(* ff.rs:815-829: one rung of the ladder of skpow and skpows *)
Definition rung (c : cfg) (p nd : ff) (b : Z) (r0 r1 : ff) : option (ff * ff) :=
  s <- ff_modmul c r0 r1 p nd ;;
  q <- ff_cswap c r0 r1 b ;;
  a <- ff_modsqr c (fst q) p nd ;;
  ff_cswap c a s b.
Fixpoint ladder (c : cfg) (p nd : ff) (bits : list Z) (r0 r1 : ff) : option (ff * ff) :=
  match bits with
  | [] => Some (r0, r1)
  | b :: t => q <- rung c p nd b r0 r1 ;; ladder c p nd t (fst q) (snd q)
  end.
(* the exponent bits, most significant first: e.v[i / BIGBITS].bit(i % BIGBITS) for i = hi-1 .. 0 *)
Fixpoint ff_bits (c : cfg) (e : ff) (i : nat) : option (list Z) :=
  match i with
  | O => Some []
  | S j =>
      w <- nth_error e (Z.to_nat (Z.of_nat j / BIGBITS c)) ;;
      b <- bit c w (Z.of_nat j mod BIGBITS c) ;;
      t <- ff_bits c e j ;; Some (b :: t)
  end.
(* ff.rs:801-835 skpow *)
Definition ff_skpow (c : cfg) (s e p : ff) : option ff :=
  let n := length p in
  nd <- ff_invmod2m c p ;;
  s1 <- ff_rmod c s p ;;
  r0 <- ff_nres c (ff_one c n) p ;;
  r1 <- ff_nres c s1 p ;;
  bs <- ff_bits c e (Z.to_nat (8 * MODBYTES c) * n) ;;
  q <- ladder c p nd bs r0 r1 ;;
  ff_redc c (fst q) p nd.

(* ff.rs:873-905 power; [o] is self once it has been set (f = false); ee < 0 loops for ever *)
Fixpoint pow_loop (fuel : nat) (c : cfg) (p nd : ff) (ee : Z) (o : option ff) (w : ff) : option (option ff) :=
  match fuel with
  | O => None
  | S f =>
      o1 <- (if Z.rem ee 2 =? 1
             then match o with None => Some (Some w) | Some s => s1 <- ff_modmul c s w p nd ;; Some (Some s1) end
             else Some o) ;;
      let e1 := Z.shiftr ee 1 in
      if e1 =? 0 then Some o1 else w1 <- ff_modsqr c w p nd ;; pow_loop f c p nd e1 o1 w1
  end.
Definition ff_power (c : cfg) (s : ff) (e : Z) (p : ff) : option ff :=
  nd <- ff_invmod2m c p ;;
  w0 <- ff_copy (length p) s ;;
  w <- ff_nres c w0 p ;;
  s1 <- (if e =? 2 then ff_modsqr c w p nd
         else o <- pow_loop (S (Z.to_nat (CHUNK c))) c p nd e None w ;; Some (match o with Some r => r | None => s end)) ;;
  ff_redc c s1 p nd.

(* rsa.rs:38-49 *)
Record rsa_priv := mk_priv { k_p : ff; k_q : ff; k_dp : ff; k_dq : ff; k_c : ff }.
Record rsa_pub := mk_pub { k_e : Z; k_n : ff }.
(* rsa.rs:431-438 encrypt: f the input, g the output buffer *)
Definition rsa_encrypt (c : cfg) (pb : rsa_pub) (f g : list Z) : option (list Z) :=
  r <- ff_frombytes c (length (k_n pb)) f ;;
  r <- ff_power c r (k_e pb) (k_n pb) ;;
  ff_tobytes c r g.
(* rsa.rs:441-470 decrypt *)
Definition rsa_decrypt (c : cfg) (pv : rsa_priv) (g f : list Z) : option (list Z) :=
  let p := k_p pv in let q := k_q pv in
  let n := length p in
  r <- ff_frombytes c (2 * n) g ;;
  jp <- ff_dmod c r p ;;
  jq <- ff_dmod c r q ;;
  jp <- ff_skpow c jp (k_dp pv) p ;;
  jq <- ff_skpow c jq (k_dq pv) q ;;
  let r := dscopy c jp in
  jp <- ff_rmod c jp q ;;
  jq <- (if 0 <? ff_comp jp jq then ff_add c jq q else Some jq) ;;
  jq <- ff_sub c jq jp ;;
  jq <- ff_norm c jq ;;
  t <- ff_mul c (k_c pv) jq ;;
  jq <- ff_dmod c t q ;;
  t <- ff_mul c jq p ;;
  r <- ff_add c r t ;;
  r <- ff_norm c r ;;
  ff_tobytes c r f.
