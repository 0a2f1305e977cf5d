(** Model of /repo/src/fp12.rs: FP12 = FP4[z], z^3 = w, with the sparsity tag.  [None] = panic.
    Not modelled: tostring, to_hex, from_hex (string formatting), compow (it rests on the unmodelled xtr loops). *)
From Verif Require Export Base.Word Base.Arr Model.Big Model.Roms Model.Fp Model.Fp2 Model.Fp4.

(** types.rs:52-57, ecp::SEXTIC_TWIST *)
Inductive twist := DType | MType.
Definition is_d (t : twist) : bool := match t with DType => true | MType => false end.
(** fp12.rs:29-33 *)
Definition T_ZERO : Z := 0. Definition T_ONE : Z := 1. Definition T_SPARSER : Z := 2. Definition T_SPARSE : Z := 3. Definition T_DENSE : Z := 4.
(** fp12.rs:35-41 *)
Record fp12 := mkfp12 { f12a : fp4; f12b : fp4; f12c : fp4; f12t : Z }.

Section Fp12.
Variable bd : build.
Variable r : rom.
Variable tw : twist.
Notation c := (r_cfg r).

(** fp12.rs:52-96 new, new_int, new_fp4s, new_fp4 *)
Definition fp12_new : fp12 := mkfp12 (fp4_new r) (fp4_new r) (fp4_new r) T_ZERO.
Definition fp12_new_int (a : Z) : option fp12 := x <- fp4_new_int r a ;; Some (mkfp12 x (fp4_new r) (fp4_new r) (if a =? 1 then T_ONE else T_SPARSER)).
Definition fp12_new_fp4 (a : fp4) : fp12 := mkfp12 a (fp4_new r) (fp4_new r) T_SPARSER.
Definition fp12_one : option fp12 := x <- fp4_one r ;; Some (mkfp12 x (fp4_new r) (fp4_new r) T_ONE).        (* 180-185 *)
(** fp12.rs:99-116 reduce, norm, iszilch *)
Definition fp12_reduce (x : fp12) : option fp12 :=
  a <- fp4_reduce r (f12a x) ;; b <- fp4_reduce r (f12b x) ;; d <- fp4_reduce r (f12c x) ;; Some (mkfp12 a b d (f12t x)).
Definition fp12_norm (x : fp12) : option fp12 :=
  a <- fp4_norm r (f12a x) ;; b <- fp4_norm r (f12b x) ;; d <- fp4_norm r (f12c x) ;; Some (mkfp12 a b d (f12t x)).
Definition fp12_iszilch (x : fp12) : option bool :=
  a <- fp4_iszilch r (f12a x) ;; if a then (b <- fp4_iszilch r (f12b x) ;; if b then fp4_iszilch r (f12c x) else Some false) else Some false.
(** fp12.rs:119-126 cmove: [u = !(u-1)] on usize; u - 1 underflows for d = 0, which panics in a debug build *)
Definition fp12_cmove (x g : fp12) (d : Z) : option fp12 :=
  a <- fp4_cmove r (f12a x) (f12a g) d ;;
  b <- fp4_cmove r (f12b x) (f12b g) d ;;
  e <- fp4_cmove r (f12c x) (f12c g) d ;;
  let u := wrapu 64 d in
  u1 <- (if u =? 0 then match bd with Debug => None | Release => Some (2 ^ 64 - 1) end else Some (u - 1)) ;;
  let m := 2 ^ 64 - 1 - u1 in
  Some (mkfp12 a b e (Z.lxor (f12t x) (Z.land (Z.lxor (f12t x) (f12t g)) m))).
(** fp12.rs:157-165 isunity, equals *)
Definition fp12_isunity (x : fp12) : option bool :=
  one <- fp4_new_int r 1 ;; a <- fp4_equals r (f12a x) one ;;
  if a then (b <- fp4_iszilch r (f12b x) ;; if b then fp4_iszilch r (f12c x) else Some false) else Some false.
Definition fp12_equals (x y : fp12) : option bool :=
  a <- fp4_equals r (f12a x) (f12a y) ;;
  if a then (b <- fp4_equals r (f12b x) (f12b y) ;; if b then fp4_equals r (f12c x) (f12c y) else Some false) else Some false.
(** fp12.rs:196-200 conj *)
Definition fp12_conj (x : fp12) : option fp12 :=
  a <- fp4_conj r (f12a x) ;; b <- fp4_nconj r (f12b x) ;; d <- fp4_conj r (f12c x) ;; Some (mkfp12 a b d (f12t x)).
(** fp12.rs:203-241 usqr *)
Definition fp12_usqr (x : fp12) : option fp12 :=
  sa <- fp4_sqr r (f12a x) ;;
  d <- fp4_add r sa sa ;;
  sa <- fp4_add r sa d ;;
  sa <- fp4_norm r sa ;;
  a <- fp4_nconj r (f12a x) ;;
  a <- fp4_dbl r a ;;
  sa <- fp4_add r sa a ;;
  b <- fp4_sqr r (f12c x) ;;
  b <- fp4_times_i r b ;;
  d <- fp4_add r b b ;;
  b <- fp4_add r b d ;;
  b <- fp4_norm r b ;;
  e <- fp4_sqr r (f12b x) ;;
  d <- fp4_add r e e ;;
  e <- fp4_add r e d ;;
  e <- fp4_norm r e ;;
  sb <- fp4_conj r (f12b x) ;;
  sb <- fp4_dbl r sb ;;
  sc <- fp4_nconj r (f12c x) ;;
  sc <- fp4_dbl r sc ;;
  sb <- fp4_add r sb b ;;
  sc <- fp4_add r sc e ;;
  fp12_reduce (mkfp12 sa sb sc T_DENSE).
(** fp12.rs:244-289 sqr *)
Definition fp12_sqr (x : fp12) : option fp12 :=
  if f12t x =? T_ONE then Some x else
  a <- fp4_sqr r (f12a x) ;;
  b <- fp4_mul r (f12b x) (f12c x) ;;
  b <- fp4_dbl r b ;;
  b <- fp4_norm r b ;;
  e <- fp4_sqr r (f12c x) ;;
  d <- fp4_mul r (f12a x) (f12b x) ;;
  d <- fp4_dbl r d ;;
  sc <- fp4_add r (f12c x) (f12a x) ;;
  sc <- fp4_add r sc (f12b x) ;;
  sc <- fp4_norm r sc ;;
  sc <- fp4_sqr r sc ;;
  let sa := a in
  a <- fp4_add r a b ;;
  a <- fp4_norm r a ;;
  a <- fp4_add r a e ;;
  a <- fp4_add r a d ;;
  a <- fp4_norm r a ;;
  a <- fp4_neg r a ;;
  b <- fp4_times_i r b ;;
  e <- fp4_times_i r e ;;
  sa <- fp4_add r sa b ;;
  sb <- fp4_add r e d ;;
  sc <- fp4_add r sc a ;;
  fp12_norm (mkfp12 sa sb sc (if f12t x =? T_SPARSER then T_SPARSE else T_DENSE)).
(** fp12.rs:292-358 mul *)
Definition fp12_mul (x y : fp12) : option fp12 :=
  z0 <- fp4_mul r (f12a x) (f12a y) ;;
  z2 <- fp4_mul r (f12b x) (f12b y) ;;
  t0 <- fp4_add r (f12a x) (f12b x) ;;
  t1 <- fp4_add r (f12a y) (f12b y) ;;
  t0 <- fp4_norm r t0 ;;
  t1 <- fp4_norm r t1 ;;
  z1 <- fp4_mul r t0 t1 ;;
  t0 <- fp4_add r (f12b x) (f12c x) ;;
  t1 <- fp4_add r (f12b y) (f12c y) ;;
  t0 <- fp4_norm r t0 ;;
  t1 <- fp4_norm r t1 ;;
  z3 <- fp4_mul r t0 t1 ;;
  t0 <- fp4_neg r z0 ;;
  t1 <- fp4_neg r z2 ;;
  z1 <- fp4_add r z1 t0 ;;
  sb <- fp4_add r z1 t1 ;;
  z3 <- fp4_add r z3 t1 ;;
  z2 <- fp4_add r z2 t0 ;;
  t0 <- fp4_add r (f12a x) (f12c x) ;;
  t0 <- fp4_norm r t0 ;;
  t1 <- fp4_add r (f12a y) (f12c y) ;;
  t1 <- fp4_norm r t1 ;;
  t0 <- fp4_mul r t0 t1 ;;
  z2 <- fp4_add r z2 t0 ;;
  t0 <- fp4_mul r (f12c x) (f12c y) ;;
  t1 <- fp4_neg r t0 ;;
  sc <- fp4_add r z2 t1 ;;
  z3 <- fp4_add r z3 t1 ;;
  t0 <- fp4_times_i r t0 ;;
  sb <- fp4_add r sb t0 ;;
  z3 <- fp4_norm r z3 ;;
  z3 <- fp4_times_i r z3 ;;
  sa <- fp4_add r z0 z3 ;;
  fp12_norm (mkfp12 sa sb sc T_DENSE).
(** fp12.rs:577-699 smul *)
Definition fp12_smul (x y : fp12) : option fp12 :=
  let xa := f4a (f12a x) in let xb := f4b (f12a x) in let ya := f4a (f12a y) in let yb := f4b (f12a y) in
  let xc := if is_d tw then f4a (f12b x) else f4b (f12c x) in
  let yc := if is_d tw then f4a (f12b y) else f4b (f12c y) in
  w1 <- fp2_mul r xa ya ;;
  w2 <- fp2_mul r xb yb ;;
  w3 <- fp2_mul r xc yc ;;
  ta <- fp2_add r xa xb ;; ta <- fp2_norm r ta ;;
  tb <- fp2_add r ya yb ;; tb <- fp2_norm r tb ;;
  tc <- fp2_mul r ta tb ;;
  t <- fp2_add r w1 w2 ;; t <- fp2_neg r t ;;
  tc <- fp2_add r tc t ;;
  ta <- fp2_add r xa xc ;; ta <- fp2_norm r ta ;;
  tb <- fp2_add r ya yc ;; tb <- fp2_norm r tb ;;
  td <- fp2_mul r ta tb ;;
  t <- fp2_add r w1 w3 ;; t <- fp2_neg r t ;;
  td <- fp2_add r td t ;;
  ta <- fp2_add r xb xc ;; ta <- fp2_norm r ta ;;
  tb <- fp2_add r yb yc ;; tb <- fp2_norm r tb ;;
  te <- fp2_mul r ta tb ;;
  t <- fp2_add r w2 w3 ;; t <- fp2_neg r t ;;
  te <- fp2_add r te t ;;
  w2 <- fp2_mul_ip r w2 ;;
  w1 <- fp2_add r w1 w2 ;;
  match tw with
  | DType =>
      sa <- fp4_norm r (mkfp4 w1 tc) ;;
      sb <- fp4_norm r (mkfp4 td te) ;;
      Some (mkfp12 sa sb (fp4_of2 r w3) T_SPARSE)
  | MType =>
      w3 <- fp2_mul_ip r w3 ;;
      w3 <- fp2_norm r w3 ;;
      te <- fp2_norm r te ;;
      te <- fp2_mul_ip r te ;;
      sa <- fp4_norm r (mkfp4 w1 tc) ;;
      sc <- fp4_norm r (mkfp4 te td) ;;
      Some (mkfp12 sa (fp4_of2h r w3) sc T_SPARSE)
  end.
(** fp12.rs:371-394, the product of the b components in the dense/sparse branch of ssmul *)
Definition ssmul_z2 (x y : fp12) : option fp4 :=
  if negb (is_d tw) && ((f12t y =? T_SPARSE) || (f12t x =? T_SPARSE)) then
    gb <- fp2_mul r (f4b (f12b x)) (f4b (f12b y)) ;;
    ga <- (if negb (f12t y =? T_SPARSE) then fp2_mul r (f4b (f12b x)) (f4a (f12b y)) else Some (fp2_new r)) ;;
    ga <- (if negb (f12t x =? T_SPARSE) then fp2_mul r (f4a (f12b x)) (f4b (f12b y)) else Some ga) ;;
    fp4_times_i r (mkfp4 ga gb)
  else fp4_mul r (f12b x) (f12b y).
(** fp12.rs:443-464, the product of the c components *)
Definition ssmul_t0 (x y : fp12) : option fp4 :=
  if is_d tw && ((f12t y =? T_SPARSE) || (f12t x =? T_SPARSE)) then
    ga <- fp2_mul r (f4a (f12c x)) (f4a (f12c y)) ;;
    gb <- (if negb (f12t y =? T_SPARSE) then fp2_mul r (f4a (f12c x)) (f4b (f12c y)) else Some (fp2_new r)) ;;
    gb <- (if negb (f12t x =? T_SPARSE) then fp2_mul r (f4b (f12c x)) (f4a (f12c y)) else Some gb) ;;
    Some (mkfp4 ga gb)
  else fp4_mul r (f12c x) (f12c y).
(** fp12.rs:363-574 ssmul *)
Definition fp12_ssmul (x y : fp12) : option fp12 :=
  if f12t x =? T_ONE then Some y else
  if f12t y =? T_ONE then Some x else
  if T_SPARSE <=? f12t y then
    z0 <- fp4_mul r (f12a x) (f12a y) ;;
    z2 <- ssmul_z2 x y ;;
    t0 <- fp4_add r (f12a x) (f12b x) ;;
    t0 <- fp4_norm r t0 ;;
    t1 <- fp4_add r (f12a y) (f12b y) ;;
    t1 <- fp4_norm r t1 ;;
    z1 <- fp4_mul r t0 t1 ;;
    t0 <- fp4_add r (f12b x) (f12c x) ;;
    t0 <- fp4_norm r t0 ;;
    t1 <- fp4_add r (f12b y) (f12c y) ;;
    t1 <- fp4_norm r t1 ;;
    z3 <- fp4_mul r t0 t1 ;;
    t0 <- fp4_neg r z0 ;;
    t1 <- fp4_neg r z2 ;;
    z1 <- fp4_add r z1 t0 ;;
    sb <- fp4_add r z1 t1 ;;
    z3 <- fp4_add r z3 t1 ;;
    z2 <- fp4_add r z2 t0 ;;
    t0 <- fp4_add r (f12a x) (f12c x) ;;
    t0 <- fp4_norm r t0 ;;
    t1 <- fp4_add r (f12a y) (f12c y) ;;
    t1 <- fp4_norm r t1 ;;
    t0 <- fp4_mul r t0 t1 ;;
    z2 <- fp4_add r z2 t0 ;;
    t0 <- ssmul_t0 x y ;;
    t1 <- fp4_neg r t0 ;;
    sc <- fp4_add r z2 t1 ;;
    z3 <- fp4_add r z3 t1 ;;
    t0 <- fp4_times_i r t0 ;;
    sb <- fp4_add r sb t0 ;;
    z3 <- fp4_norm r z3 ;;
    z3 <- fp4_times_i r z3 ;;
    sa <- fp4_add r z0 z3 ;;
    fp12_norm (mkfp12 sa sb sc T_DENSE)
  else
    if f12t x =? T_SPARSER then fp12_smul x y else
    match tw with
    | DType =>
        let yb := f4a (f12b y) in
        z0 <- fp4_mul r (f12a x) (f12a y) ;;
        z2 <- fp4_pmul r (f12b x) yb ;;
        sb <- fp4_add r (f12b x) (f12a x) ;;
        t1 <- fp4_padd r (f12a y) yb ;;
        t1 <- fp4_norm r t1 ;;
        sb <- fp4_norm r sb ;;
        sb <- fp4_mul r sb t1 ;;
        z3 <- fp4_add r (f12b x) (f12c x) ;;
        z3 <- fp4_norm r z3 ;;
        z3 <- fp4_pmul r z3 yb ;;
        t0 <- fp4_neg r z0 ;;
        t1 <- fp4_neg r z2 ;;
        sb <- fp4_add r sb t0 ;;
        sb <- fp4_add r sb t1 ;;
        z3 <- fp4_add r z3 t1 ;;
        z2 <- fp4_add r z2 t0 ;;
        t0 <- fp4_add r (f12a x) (f12c x) ;;
        t0 <- fp4_norm r t0 ;;
        z3 <- fp4_norm r z3 ;;
        t0 <- fp4_mul r t0 (f12a y) ;;
        sc <- fp4_add r z2 t0 ;;
        z3 <- fp4_times_i r z3 ;;
        sa <- fp4_add r z0 z3 ;;
        fp12_norm (mkfp12 sa sb sc T_DENSE)
    | MType =>
        let yc := f4b (f12c y) in
        z0 <- fp4_mul r (f12a x) (f12a y) ;;
        t0 <- fp4_add r (f12a x) (f12b x) ;;
        t0 <- fp4_norm r t0 ;;
        z1 <- fp4_mul r t0 (f12a y) ;;
        t0 <- fp4_add r (f12b x) (f12c x) ;;
        t0 <- fp4_norm r t0 ;;
        z3 <- fp4_pmul r t0 yc ;;
        z3 <- fp4_times_i r z3 ;;
        t0 <- fp4_neg r z0 ;;
        sb <- fp4_add r z1 t0 ;;
        let z2 := t0 in
        t0 <- fp4_add r (f12a x) (f12c x) ;;
        t0 <- fp4_norm r t0 ;;
        t1 <- fp4_add r (f12a y) (f12c y) ;;
        t1 <- fp4_norm r t1 ;;
        t0 <- fp4_mul r t0 t1 ;;
        z2 <- fp4_add r z2 t0 ;;
        t0 <- fp4_pmul r (f12c x) yc ;;
        t0 <- fp4_times_i r t0 ;;
        t1 <- fp4_neg r t0 ;;
        sc <- fp4_add r z2 t1 ;;
        z3 <- fp4_add r z3 t1 ;;
        t0 <- fp4_times_i r t0 ;;
        sb <- fp4_add r sb t0 ;;
        z3 <- fp4_norm r z3 ;;
        z3 <- fp4_times_i r z3 ;;
        sa <- fp4_add r z0 z3 ;;
        fp12_norm (mkfp12 sa sb sc T_DENSE)
    end.
(** fp12.rs:702-746 inverse; f0, f1 and f2 are copied before the components are normalised *)
Definition fp12_inverse (x : fp12) : option fp12 :=
  let f0 := f12a x in let f1 := f12b x in let f2 := f12a x in
  x <- fp12_norm x ;;
  f0 <- fp4_sqr r f0 ;;
  f1 <- fp4_mul r f1 (f12c x) ;;
  f1 <- fp4_times_i r f1 ;;
  f0 <- fp4_sub r f0 f1 ;;
  f0 <- fp4_norm r f0 ;;
  f1 <- fp4_sqr r (f12c x) ;;
  f1 <- fp4_times_i r f1 ;;
  f2 <- fp4_mul r f2 (f12b x) ;;
  f1 <- fp4_sub r f1 f2 ;;
  f1 <- fp4_norm r f1 ;;
  f2 <- fp4_sqr r (f12b x) ;;
  f3 <- fp4_mul r (f12a x) (f12c x) ;;
  f2 <- fp4_sub r f2 f3 ;;
  f2 <- fp4_norm r f2 ;;
  f3 <- fp4_mul r (f12b x) f2 ;;
  f3 <- fp4_times_i r f3 ;;
  sa <- fp4_mul r (f12a x) f0 ;;
  f3 <- fp4_add r f3 sa ;;
  sc <- fp4_mul r (f12c x) f1 ;;
  sc <- fp4_times_i r sc ;;
  f3 <- fp4_add r f3 sc ;;
  f3 <- fp4_norm r f3 ;;
  f3 <- fp4_inverse r f3 ;;
  sa <- fp4_mul r f0 f3 ;;
  sb <- fp4_mul r f1 f3 ;;
  sc <- fp4_mul r f2 f3 ;;
  Some (mkfp12 sa sb sc T_DENSE).
(** fp12.rs:749-763 frob *)
Definition fp12_frob (x : fp12) (f : fp2) : option fp12 :=
  f2 <- fp2_sqr r f ;;
  f3 <- fp2_mul r f f2 ;;
  a <- fp4_frob r (f12a x) f3 ;;
  b <- fp4_frob r (f12b x) f3 ;;
  e <- fp4_frob r (f12c x) f3 ;;
  b <- fp4_pmul r b f ;;
  e <- fp4_pmul r e f2 ;;
  Some (mkfp12 a b e T_DENSE).
(** fp12.rs:766-771 trace *)
Definition fp12_trace (x : fp12) : option fp4 := t <- fp4_imul r (f12a x) 3 ;; fp4_reduce r t.
(** fp12.rs:938-964 pow: one step for each i of (1..nb-1).rev().  The digit is e3.bit(i) - e1.bit(i); a digit -1 conjugates
    the base, multiplies and conjugates it back (the conjugations are not inverse to each other on the stored excess).
    nb - 1 on usize underflows for e = 0: panic in a debug build; a release build then asks for bit 2^64-3, which panics. *)
Fixpoint fp12_pow_loop (k : nat) (e1 e3 : list Z) (rr w : fp12) : option fp12 :=
  match k with
  | O => fp12_reduce w
  | S k' =>
      w <- fp12_usqr w ;;
      b3 <- bit c e3 (Z.of_nat k) ;;
      b1 <- bit c e1 (Z.of_nat k) ;;
      let bt := b3 - b1 in
      w <- (if bt =? 1 then fp12_mul w rr else Some w) ;;
      if bt =? -1 then
        rr <- fp12_conj rr ;;
        w <- fp12_mul w rr ;;
        rr <- fp12_conj rr ;;
        fp12_pow_loop k' e1 e3 rr w
      else fp12_pow_loop k' e1 e3 rr w
  end.
Definition fp12_pow (x : fp12) (e : list Z) : option fp12 :=
  rr <- fp12_norm x ;;
  e1 <- norm c e ;;
  q <- pmul c e1 3 ;;
  e3 <- norm c (snd q) ;;
  nb <- nbits c e3 ;;
  if nb =? 0 then None else fp12_pow_loop (Z.to_nat (nb - 2)) e1 e3 rr rr.
(** fp12.rs:967-977 pinpow, for bts <= 32 (the shift e >> i of an i32 panics otherwise) *)
Fixpoint fp12_pinpow_loop (k : nat) (e : Z) (r0 r1 : fp12) : option fp12 :=
  match k with
  | O => Some r0
  | S k' =>
      if Z.odd (Z.shiftr e (Z.of_nat k')) then
        r0 <- fp12_mul r0 r1 ;; r1 <- fp12_usqr r1 ;; fp12_pinpow_loop k' e r0 r1
      else
        r1 <- fp12_mul r1 r0 ;; r0 <- fp12_usqr r0 ;; fp12_pinpow_loop k' e r0 r1
  end.
Definition fp12_pinpow (x : fp12) (e bts : Z) : option fp12 :=
  if 32 <? bts then None else one <- fp12_new_int 1 ;; fp12_pinpow_loop (Z.to_nat bts) e one x.
(** fp12.rs:774-846 frombytes and 849-903 tobytes: twelve MODBYTES-byte slices in the order a.a.a a.a.b a.b.a ... c.b.b *)
Definition MB : nat := Z.to_nat (MODBYTES c).
Definition slice12 (w : list Z) (k : nat) : option (list Z) :=
  if (length w <? (k + 1) * MB)%nat then None else Some (firstn MB (skipn (k * MB) w)).
Definition fp2_at (w : list Z) (k : nat) : option fp2 :=
  s <- slice12 w k ;; a <- frombytes c s ;;
  s <- slice12 w (k + 1) ;; b <- frombytes c s ;;
  fp2_new_bigs r a b.
Definition fp12_frombytes (w : list Z) : option fp12 :=
  aa <- fp2_at w 0 ;; ab <- fp2_at w 2 ;; ba <- fp2_at w 4 ;; bb <- fp2_at w 6 ;; ca <- fp2_at w 8 ;; cb <- fp2_at w 10 ;;
  Some (mkfp12 (mkfp4 aa ab) (mkfp4 ba bb) (mkfp4 ca cb) T_DENSE).
End Fp12.
