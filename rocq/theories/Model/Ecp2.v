(** Model of /repo/src/ecp2.rs: points of the sextic twist over FP2, in projective coordinates (X : Y : Z).
    [tw] is ecp::SEXTIC_TWIST, [bi] is rom::CURVE_B_I.  [None] is a panic.  A method that overwrites [self] returns the new value.
    Not modelled: cmove/selector/mul/mul4 (scalar multiplication), frob, mapit, clear_cofactor, and the string conversions. *)
From Verif Require Export Base.Word Base.Arr Model.Big Model.Roms Model.Fp Model.Fp2 Model.Fp12 Model.Ecp.

(** ecp2.rs:30-34 *)
Record ecp2 := mkecp2 { x2 : fp2; y2 : fp2; z2 : fp2 }.

Section Ecp2.
Variable r : rom.
Variable tw : twist.
Notation c := (r_cfg r).

(** fp2.rs:86-95 new_big: the real element *)
Definition fp2_new_big (b : list Z) : option fp2 := x <- fp_new_big r b ;; Some (mkfp2 x (fp_new r)).
(** fp2.rs:132-139 geta, getb *)
Definition fp2_geta (x : fp2) : option (list Z) := fp_redc r (f2a x).
Definition fp2_getb (x : fp2) : option (list Z) := fp_redc r (f2b x).

(** ecp2.rs:58-64 new *)
Definition ecp2_new : option ecp2 := o <- fp2_new_int r 1 ;; Some (mkecp2 (fp2_new r) o (fp2_new r)).
(** ecp2.rs:108-112 inf *)
Definition ecp2_inf : option ecp2 := o <- fp2_one r ;; Some (mkecp2 (fp2_new r) o (fp2_new r)).
(** ecp2.rs:310-330 rhs *)
Definition ecp2_rhs (x : fp2) : option fp2 :=
  s <- fp2_sqr r x ;;
  b <- fp2_new_big (r_CURVE_B r) ;;
  b <- (match tw with
        | DType => fp2_div_ip r b
        | MType => b <- fp2_norm r b ;; b <- fp2_mul_ip r b ;; fp2_norm r b
        end) ;;
  s <- fp2_mul r s x ;;
  s <- fp2_add r s b ;;
  fp2_reduce r s.
(** ecp2.rs:67-82 new_fp2s *)
Definition ecp2_new_fp2s (x y : fp2) : option ecp2 :=
  z <- fp2_new_int r 1 ;;
  x <- fp2_norm r x ;;
  rhs <- ecp2_rhs x ;;
  yy <- fp2_sqr r y ;;
  q <- fp2_equals r yy rhs ;;
  if negb q then ecp2_inf else Some (mkecp2 x y z).
(** ecp2.rs:85-98 new_fp2 *)
Definition ecp2_new_fp2 (ix : fp2) : option ecp2 :=
  E <- ecp2_new ;;
  o <- fp2_one r ;;
  x <- fp2_norm r ix ;;
  rhs <- ecp2_rhs x ;;
  bs <- fp2_sqrt r rhs ;;
  if fst bs then Some (mkecp2 x (snd bs) o) else ecp2_inf.
(** ecp2.rs:104-106 is_infinity (&& is lazy) *)
Definition ecp2_is_infinity (P : ecp2) : option bool :=
  a <- fp2_iszilch r (x2 P) ;; if a then fp2_iszilch r (z2 P) else Some false.
(** ecp2.rs:115-119 neg *)
Definition ecp2_neg (P : ecp2) : option ecp2 :=
  y <- fp2_norm r (y2 P) ;; y <- fp2_neg r y ;; y <- fp2_norm r y ;; Some (mkecp2 (x2 P) y (z2 P)).
(** ecp2.rs:157-177 equals *)
Definition ecp2_equals (P Q : ecp2) : option bool :=
  a <- fp2_mul r (x2 P) (z2 Q) ;;
  b <- fp2_mul r (x2 Q) (z2 P) ;;
  e <- fp2_equals r a b ;;
  if negb e then Some false else
  a <- fp2_mul r (y2 P) (z2 Q) ;;
  b <- fp2_mul r (y2 Q) (z2 P) ;;
  fp2_equals r a b.
(** ecp2.rs:180-195 affine *)
Definition ecp2_affine (P : ecp2) : option ecp2 :=
  i <- ecp2_is_infinity P ;;
  if (i : bool) then Some P else
  one <- fp2_new_int r 1 ;;
  e <- fp2_equals r (z2 P) one ;;
  if (e : bool) then Some P else
  z <- fp2_inverse r (z2 P) ;;
  x <- fp2_mul r (x2 P) z ;; x <- fp2_reduce r x ;;
  y <- fp2_mul r (y2 P) z ;; y <- fp2_reduce r y ;;
  Some (mkecp2 x y one).
(** ecp2.rs:198-209 getx, gety *)
Definition ecp2_getx (P : ecp2) : option fp2 := W <- ecp2_affine P ;; Some (x2 W).
Definition ecp2_gety (P : ecp2) : option fp2 := W <- ecp2_affine P ;; Some (y2 W).
(** ecp2.rs:225-249 tobytes: the 4 * MODBYTES bytes written to the front of b *)
Definition ecp2_tobytes (P : ecp2) (b : list Z) : option (list Z) :=
  let mb := Z.to_nat (MODBYTES c) in
  W <- ecp2_affine P ;;
  xa <- fp2_geta (x2 W) ;; t <- tobytes c xa (repeat 0 mb) ;; b <- put_from b 0 t ;;
  xb <- fp2_getb (x2 W) ;; t <- tobytes c xb t ;; b <- put_from b mb t ;;
  ya <- fp2_geta (y2 W) ;; t <- tobytes c ya t ;; b <- put_from b (2 * mb) t ;;
  yb <- fp2_getb (y2 W) ;; t <- tobytes c yb t ;; put_from b (3 * mb) t.
(** ecp2.rs:252-279 frombytes *)
Definition ecp2_frombytes (b : list Z) : option ecp2 :=
  let mb := Z.to_nat (MODBYTES c) in
  t <- get_range b 0 mb ;; ra <- frombytes c t ;;
  t <- get_range b mb mb ;; rb <- frombytes c t ;;
  rx <- fp2_new_bigs r ra rb ;;
  t <- get_range b (2 * mb) mb ;; ra <- frombytes c t ;;
  t <- get_range b (3 * mb) mb ;; rb <- frombytes c t ;;
  ry <- fp2_new_bigs r ra rb ;;
  ecp2_new_fp2s rx ry.

Variable bi : Z.
Definition ifd (f : fp2 -> option fp2) (x : fp2) : option fp2 := match tw with DType => f x | MType => Some x end.
Definition ifm (f : fp2 -> option fp2) (x : fp2) : option fp2 := match tw with MType => f x | DType => Some x end.
Definition mul_ip_n (x : fp2) : option fp2 := x <- fp2_mul_ip r x ;; fp2_norm r x.
(** ecp2.rs:333-389 dbl *)
Definition ecp2_dbl (P : ecp2) : option ecp2 :=
  iy <- ifd mul_ip_n (y2 P) ;;
  t0 <- fp2_sqr r (y2 P) ;;
  t0 <- ifd (fp2_mul_ip r) t0 ;;
  t1 <- fp2_mul r iy (z2 P) ;;
  t2 <- fp2_sqr r (z2 P) ;;
  z <- fp2_add r t0 t0 ;; z <- fp2_norm r z ;;
  z <- fp2_dbl r z ;; z <- fp2_dbl r z ;; z <- fp2_norm r z ;;
  t2 <- fp2_imul r t2 (3 * bi) ;;
  t2 <- ifm mul_ip_n t2 ;;
  x3 <- fp2_mul r t2 z ;;
  y3 <- fp2_add r t0 t2 ;; y3 <- fp2_norm r y3 ;;
  z <- fp2_mul r z t1 ;;
  t1 <- fp2_add r t2 t2 ;;
  t2 <- fp2_add r t2 t1 ;; t2 <- fp2_norm r t2 ;;
  t0 <- fp2_sub r t0 t2 ;; t0 <- fp2_norm r t0 ;;
  y3 <- fp2_mul r y3 t0 ;;
  y3 <- fp2_add r y3 x3 ;;
  t1 <- fp2_mul r (x2 P) iy ;;
  x <- fp2_norm r t0 ;;
  x <- fp2_mul r x t1 ;;
  x <- fp2_dbl r x ;; x <- fp2_norm r x ;;
  y <- fp2_norm r y3 ;;
  Some (mkecp2 x y z).
(** ecp2.rs:392-492 add.  The returned value (always 0) is dropped. *)
Definition ecp2_add (P Q : ecp2) : option ecp2 :=
  t0 <- fp2_mul r (x2 P) (x2 Q) ;;
  t1 <- fp2_mul r (y2 P) (y2 Q) ;;
  t2 <- fp2_mul r (z2 P) (z2 Q) ;;
  t3 <- fp2_add r (x2 P) (y2 P) ;; t3 <- fp2_norm r t3 ;;
  t4 <- fp2_add r (x2 Q) (y2 Q) ;; t4 <- fp2_norm r t4 ;;
  t3 <- fp2_mul r t3 t4 ;;
  t4 <- fp2_add r t0 t1 ;;
  t3 <- fp2_sub r t3 t4 ;; t3 <- fp2_norm r t3 ;;
  t3 <- ifd mul_ip_n t3 ;;
  t4 <- fp2_add r (y2 P) (z2 P) ;; t4 <- fp2_norm r t4 ;;
  x3 <- fp2_add r (y2 Q) (z2 Q) ;; x3 <- fp2_norm r x3 ;;
  t4 <- fp2_mul r t4 x3 ;;
  x3 <- fp2_add r t1 t2 ;;
  t4 <- fp2_sub r t4 x3 ;; t4 <- fp2_norm r t4 ;;
  t4 <- ifd mul_ip_n t4 ;;
  x3 <- fp2_add r (x2 P) (z2 P) ;; x3 <- fp2_norm r x3 ;;
  y3 <- fp2_add r (x2 Q) (z2 Q) ;; y3 <- fp2_norm r y3 ;;
  x3 <- fp2_mul r x3 y3 ;;
  y3 <- fp2_add r t0 t2 ;;
  y3 <- fp2_rsub r y3 x3 ;; y3 <- fp2_norm r y3 ;;
  t0 <- ifd mul_ip_n t0 ;;
  t1 <- ifd mul_ip_n t1 ;;
  x3 <- fp2_add r t0 t0 ;;
  t0 <- fp2_add r t0 x3 ;; t0 <- fp2_norm r t0 ;;
  t2 <- fp2_imul r t2 (3 * bi) ;;
  t2 <- ifm mul_ip_n t2 ;;
  z3 <- fp2_add r t1 t2 ;; z3 <- fp2_norm r z3 ;;
  t1 <- fp2_sub r t1 t2 ;; t1 <- fp2_norm r t1 ;;
  y3 <- fp2_imul r y3 (3 * bi) ;;
  y3 <- ifm mul_ip_n y3 ;;
  x3 <- fp2_mul r y3 t4 ;;
  t2 <- fp2_mul r t3 t1 ;;
  x3 <- fp2_rsub r x3 t2 ;;
  y3 <- fp2_mul r y3 t0 ;;
  t1 <- fp2_mul r t1 z3 ;;
  y3 <- fp2_add r y3 t1 ;;
  t0 <- fp2_mul r t0 t3 ;;
  z3 <- fp2_mul r z3 t4 ;;
  z3 <- fp2_add r z3 t0 ;;
  x <- fp2_norm r x3 ;;
  y <- fp2_norm r y3 ;;
  z <- fp2_norm r z3 ;;
  Some (mkecp2 x y z).
(** ecp2.rs:495-500 sub *)
Definition ecp2_sub (P Q : ecp2) : option ecp2 := N <- ecp2_neg Q ;; ecp2_add P N.
End Ecp2.
