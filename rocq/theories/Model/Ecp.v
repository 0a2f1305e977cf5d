(** Model of /repo/src/ecp.rs: points in projective coordinates over any ROM (Weierstrass, Edwards, Montgomery).
    [None] = panic, as in Model/Big.v.  Not modelled: Display/tostring and to_hex/from_hex (string formatting), mulx
    and the plain coordinate getters. *)
From Verif Require Export Base.Word Model.Big Model.Roms Model.Fp.
From Verif Require Import Base.Arr Model.Fp2.

(** ecp.rs:30-34 *)
Record ecp := mkecp { ex : fp; ey : fp; ez : fp }.

Section Ecp.
Variable r : rom.
Notation c := (r_cfg r).
Notation CA := (r_CURVE_A r).
Notation CBI := (r_CURVE_B_I r).

Definition is_mont : bool := match r_CURVETYPE r with Montgomery => true | _ => false end.
(** ecp.rs:58-72 pnew, new *)
Definition ecp_new : option ecp :=
  one <- fp_new_int r 1 ;;
  match r_CURVETYPE r with
  | Edwards => z <- fp_one r ;; Some (mkecp (fp_new r) one z)
  | _ => Some (mkecp (fp_new r) one (fp_new r))
  end.
(** ecp.rs:160-170 inf *)
Definition ecp_inf (P : ecp) : option ecp :=
  y <- (if is_mont then Some (ey P) else fp_one r) ;;
  z <- (match r_CURVETYPE r with Edwards => fp_one r | _ => Some (fp_new r) end) ;;
  Some (mkecp (fp_new r) y z).
(** ecp.rs:173-215 rhs *)
Definition ecp_rhs (x : fp) : option fp :=
  s <- fp_sqr r x ;;
  t <- (match r_CURVETYPE r with
        | Weierstrass =>
            b <- fp_new_big r (r_CURVE_B r) ;;
            s <- fp_mul r s x ;;
            s <- (if CA =? -3 then
                    cx <- fp_imul r x 3 ;;
                    cx <- fp_neg r cx ;;
                    cx <- fp_norm r cx ;;
                    fp_add r s cx
                  else Some s) ;;
            fp_add r s b
        | Edwards =>
            b <- fp_new_big r (r_CURVE_B r) ;;
            one <- fp_new_int r 1 ;;
            b <- fp_mul r b s ;;
            b <- fp_sub r b one ;;
            b <- fp_norm r b ;;
            s <- (if CA =? -1 then fp_neg r s else Some s) ;;
            s <- fp_sub r s one ;;
            s <- fp_norm r s ;;
            b <- fp_inverse r b ;;
            fp_mul r s b
        | Montgomery =>
            x3 <- fp_mul r s x ;;
            s <- fp_imul r s CA ;;
            s <- fp_add r s x3 ;;
            fp_add r s x
        end) ;;
  fp_reduce r t.
(** ecp.rs:76-95 new_bigs *)
Definition ecp_new_bigs (ix iy : list Z) : option ecp :=
  x <- fp_new_big r ix ;;
  y <- fp_new_big r iy ;;
  z <- fp_one r ;;
  x <- fp_norm r x ;;
  let E := mkecp x y z in
  rhs <- ecp_rhs x ;;
  if is_mont then
    j <- fp_jacobi r rhs ;;
    if negb (j =? 1) then ecp_inf E else Some E
  else
    y2 <- fp_sqr r y ;;
    q <- fp_equals r y2 rhs ;;
    if negb q then ecp_inf E else Some E.
(** ecp.rs:98-116 new_bigint *)
Definition ecp_new_bigint (ix : list Z) (s : Z) : option ecp :=
  E <- ecp_new ;;
  x <- fp_new_big r ix ;;
  x <- fp_norm r x ;;
  z <- fp_one r ;;
  rhs <- ecp_rhs x ;;
  j <- fp_jacobi r rhs ;;
  if j =? 1 then
    ny <- fp_sqrt r rhs ;;
    nr <- fp_redc r ny ;;
    ny <- (if negb (parity nr =? s) then fp_neg r ny else Some ny) ;;
    Some (mkecp x ny z)
  else ecp_inf (mkecp x (ey E) z).
(** ecp.rs:120-134 new_big *)
Definition ecp_new_big (ix : list Z) : option ecp :=
  E <- ecp_new ;;
  x <- fp_new_big r ix ;;
  x <- fp_norm r x ;;
  z <- fp_one r ;;
  rhs <- ecp_rhs x ;;
  j <- fp_jacobi r rhs ;;
  if j =? 1 then
    y <- (if is_mont then Some (ey E) else fp_sqrt r rhs) ;;
    Some (mkecp x y z)
  else ecp_inf (mkecp x (ey E) z).
(** ecp.rs:137-151 new_fps *)
Definition ecp_new_fps (x y : fp) : option ecp :=
  z <- fp_new_int r 1 ;;
  rhs <- ecp_rhs x ;;
  y2 <- fp_sqr r y ;;
  q <- fp_equals r y2 rhs ;;
  if negb q then ecp_inf (mkecp x y z) else Some (mkecp x y z).
(** ecp.rs:218-224 is_infinity (the && operators are short-circuiting) *)
Definition ecp_is_infinity (P : ecp) : option bool :=
  match r_CURVETYPE r with
  | Edwards => a <- fp_iszilch r (ex P) ;; if a then fp_equals r (ey P) (ez P) else Some false
  | Weierstrass => a <- fp_iszilch r (ex P) ;; if a then fp_iszilch r (ez P) else Some false
  | Montgomery => fp_iszilch r (ez P)
  end.
(** ecp.rs:227-242 cswap, cmove *)
Definition ecp_cswap (P Q : ecp) (d : Z) : option (ecp * ecp) :=
  xx <- fp_cswap r (ex P) (ex Q) d ;;
  yy <- (if is_mont then Some (ey P, ey Q) else fp_cswap r (ey P) (ey Q) d) ;;
  zz <- fp_cswap r (ez P) (ez Q) d ;;
  Some (mkecp (fst xx) (fst yy) (fst zz), mkecp (snd xx) (snd yy) (snd zz)).
Definition ecp_cmove (P Q : ecp) (d : Z) : option ecp :=
  x <- fp_cmove r (ex P) (ex Q) d ;;
  y <- (if is_mont then Some (ey P) else fp_cmove r (ey P) (ey Q) d) ;;
  z <- fp_cmove r (ez P) (ez Q) d ;;
  Some (mkecp x y z).
(** ecp.rs:245-249 teq *)
Definition teq (b d : Z) : Z := Z.land (Z.shiftr (Z.lxor b d - 1) 31) 1.
(** ecp.rs:252-262 neg *)
Definition ecp_neg (P : ecp) : option ecp :=
  match r_CURVETYPE r with
  | Weierstrass => y <- fp_neg r (ey P) ;; y <- fp_norm r y ;; Some (mkecp (ex P) y (ez P))
  | Edwards => x <- fp_neg r (ex P) ;; x <- fp_norm r x ;; Some (mkecp x (ey P) (ez P))
  | Montgomery => Some P
  end.
(** ecp.rs:274-292 selector; W has eight entries *)
Fixpoint sel_loop (P : ecp) (W : list ecp) (babs i : Z) : option ecp :=
  match W with
  | [] => Some P
  | w :: W' => Q <- ecp_cmove P w (teq babs i) ;; sel_loop Q W' babs (i + 1)
  end.
Definition ecp_selector (P : ecp) (W : list ecp) (b : Z) : option ecp :=
  let m := Z.shiftr b 31 in
  let babs := Z.quot (Z.lxor b m - m - 1) 2 in
  Q <- sel_loop P W babs 0 ;;
  MP <- ecp_neg Q ;;
  ecp_cmove Q MP (Z.land m 1).
(** ecp.rs:290-308 equals *)
Definition ecp_equals (P Q : ecp) : option bool :=
  a <- fp_mul r (ex P) (ez Q) ;;
  b <- fp_mul r (ex Q) (ez P) ;;
  q <- fp_equals r a b ;;
  if negb q then Some false else
  if is_mont then Some true else
  a <- fp_mul r (ey P) (ez Q) ;;
  b <- fp_mul r (ey Q) (ez P) ;;
  fp_equals r a b.
(** ecp.rs:311-328 affine *)
Definition ecp_affine (P : ecp) : option ecp :=
  i <- ecp_is_infinity P ;;
  if (i : bool) then Some P else
  one <- fp_new_int r 1 ;;
  q <- fp_equals r (ez P) one ;;
  if (q : bool) then Some P else
  z <- fp_inverse r (ez P) ;;
  x <- fp_mul r (ex P) z ;;
  x <- fp_reduce r x ;;
  y <- (if is_mont then Some (ey P) else y <- fp_mul r (ey P) z ;; fp_reduce r y) ;;
  Some (mkecp x y one).
(** ecp.rs:331-348 getx, gety, gets *)
Definition ecp_getx (P : ecp) : option (list Z) := W <- ecp_affine P ;; fp_redc r (ex W).
Definition ecp_gety (P : ecp) : option (list Z) := W <- ecp_affine P ;; fp_redc r (ey W).
Definition ecp_gets (P : ecp) : option Z := y <- ecp_gety P ;; Some (parity y).
(** ecp.rs:365-395 tobytes into the slice b *)
Fixpoint put_from (b : list Z) (i : nat) (t : list Z) : option (list Z) :=
  match t with
  | [] => Some b
  | x :: t' => if (i <? length b)%nat then put_from (aset b i x) (S i) t' else None
  end.
Definition put1 (b : list Z) (x : Z) : option (list Z) := put_from b 0 [x].
Definition ecp_tobytes (P : ecp) (b : list Z) (compress : bool) : option (list Z) :=
  let mb := Z.to_nat (MODBYTES c) in
  let t := repeat 0 mb in
  W <- ecp_affine P ;;
  xr <- fp_redc r (ex W) ;;
  t <- tobytes c xr t ;;
  b <- put_from b 1 t ;;
  if is_mont then put1 b 6 else
  if compress then
    yr <- fp_redc r (ey W) ;;
    put1 b (if parity yr =? 1 then 3 else 2)
  else
    b <- put1 b 4 ;;
    yr <- fp_redc r (ey W) ;;
    t <- tobytes c yr t ;;
    put_from b (mb + 1) t.
(** ecp.rs:398-431 frombytes *)
Fixpoint get_range (b : list Z) (i n : nat) : option (list Z) :=
  match n with
  | O => Some []
  | S n' => match nth_error b i with Some x => q <- get_range b (S i) n' ;; Some (x :: q) | None => None end
  end.
Definition ecp_frombytes (b : list Z) : option ecp :=
  let mb := Z.to_nat (MODBYTES c) in
  t <- get_range b 1 mb ;;
  px <- frombytes c t ;;
  if 0 <=? comp px (r_MODULUS r) then ecp_new else
  if is_mont then ecp_new_big px else
  tag <- nth_error b 0 ;;
  if tag =? 4 then
    t <- get_range b (mb + 1) mb ;;
    py <- frombytes c t ;;
    if 0 <=? comp py (r_MODULUS r) then ecp_new else ecp_new_bigs px py
  else if (tag =? 2) || (tag =? 3) then ecp_new_bigint px (Z.land tag 1)
  else ecp_new.

(** ecp.rs:470-511 dbl, Weierstrass, CURVE_A = 0 *)
Definition ecp_dbl_w0 (P : ecp) : option ecp :=
  t0 <- fp_sqr r (ey P) ;;
  t1 <- fp_mul r (ey P) (ez P) ;;
  t2 <- fp_sqr r (ez P) ;;
  z <- fp_add r t0 t0 ;;
  z <- fp_norm r z ;;
  z <- fp_dbl r z ;;
  z <- fp_dbl r z ;;
  z <- fp_norm r z ;;
  t2 <- fp_imul r t2 (3 * CBI) ;;
  x3 <- fp_mul r t2 z ;;
  y3 <- fp_add r t0 t2 ;;
  y3 <- fp_norm r y3 ;;
  z <- fp_mul r z t1 ;;
  t1 <- fp_add r t2 t2 ;;
  t2 <- fp_add r t2 t1 ;;
  t0 <- fp_sub r t0 t2 ;;
  t0 <- fp_norm r t0 ;;
  y3 <- fp_mul r y3 t0 ;;
  y3 <- fp_add r y3 x3 ;;
  t1 <- fp_mul r (ex P) (ey P) ;;
  x <- fp_norm r t0 ;;
  x <- fp_mul r x t1 ;;
  x <- fp_dbl r x ;;
  x <- fp_norm r x ;;
  y <- fp_norm r y3 ;;
  Some (mkecp x y z).
(** ecp.rs:511-600 dbl, Weierstrass, CURVE_A = -3; [mulb] is the multiplication by the curve constant *)
Definition mulb (b : fp) (x : fp) : option fp := if CBI =? 0 then fp_mul r x b else fp_imul r x CBI.
Definition getb : option fp := if CBI =? 0 then fp_new_big r (r_CURVE_B r) else Some (fp_new r).
Definition ecp_dbl_w3 (P : ecp) : option ecp :=
  b <- getb ;;
  t0 <- fp_sqr r (ex P) ;;
  t1 <- fp_sqr r (ey P) ;;
  t2 <- fp_sqr r (ez P) ;;
  t3 <- fp_mul r (ex P) (ey P) ;;
  t3 <- fp_dbl r t3 ;;
  t3 <- fp_norm r t3 ;;
  z3 <- fp_mul r (ez P) (ex P) ;;
  z3 <- fp_dbl r z3 ;;
  z3 <- fp_norm r z3 ;;
  y3 <- mulb b t2 ;;
  y3 <- fp_sub r y3 z3 ;;
  x3 <- fp_add r y3 y3 ;;
  x3 <- fp_norm r x3 ;;
  y3 <- fp_add r y3 x3 ;;
  x3 <- fp_sub r t1 y3 ;;
  x3 <- fp_norm r x3 ;;
  y3 <- fp_add r y3 t1 ;;
  y3 <- fp_norm r y3 ;;
  y3 <- fp_mul r y3 x3 ;;
  x3 <- fp_mul r x3 t3 ;;
  t3 <- fp_add r t2 t2 ;;
  t2 <- fp_add r t2 t3 ;;
  z3 <- mulb b z3 ;;
  z3 <- fp_sub r z3 t2 ;;
  z3 <- fp_sub r z3 t0 ;;
  z3 <- fp_norm r z3 ;;
  t3 <- fp_add r z3 z3 ;;
  z3 <- fp_add r z3 t3 ;;
  z3 <- fp_norm r z3 ;;
  t3 <- fp_add r t0 t0 ;;
  t0 <- fp_add r t0 t3 ;;
  t0 <- fp_sub r t0 t2 ;;
  t0 <- fp_norm r t0 ;;
  t0 <- fp_mul r t0 z3 ;;
  y3 <- fp_add r y3 t0 ;;
  t0 <- fp_mul r (ey P) (ez P) ;;
  t0 <- fp_dbl r t0 ;;
  t0 <- fp_norm r t0 ;;
  z3 <- fp_mul r z3 t0 ;;
  x3 <- fp_sub r x3 z3 ;;
  t0 <- fp_dbl r t0 ;;
  t0 <- fp_norm r t0 ;;
  t1 <- fp_dbl r t1 ;;
  t1 <- fp_norm r t1 ;;
  z3 <- fp_mul r t0 t1 ;;
  x <- fp_norm r x3 ;;
  y <- fp_norm r y3 ;;
  z <- fp_norm r z3 ;;
  Some (mkecp x y z).
(** ecp.rs:601-628 dbl, Edwards *)
Definition ecp_dbl_e (P : ecp) : option ecp :=
  x <- fp_mul r (ex P) (ey P) ;;
  x <- fp_dbl r x ;;
  x <- fp_norm r x ;;
  cc <- fp_sqr r (ex P) ;;
  d <- fp_sqr r (ey P) ;;
  cc <- (if CA =? -1 then fp_neg r cc else Some cc) ;;
  y <- fp_add r cc d ;;
  y <- fp_norm r y ;;
  h <- fp_sqr r (ez P) ;;
  h <- fp_dbl r h ;;
  j <- fp_sub r y h ;;
  j <- fp_norm r j ;;
  x <- fp_mul r x j ;;
  cc <- fp_sub r cc d ;;
  cc <- fp_norm r cc ;;
  z <- fp_mul r y j ;;
  y <- fp_mul r y cc ;;
  Some (mkecp x y z).
(** ecp.rs:629-655 dbl, Montgomery *)
Definition ecp_dbl_m (P : ecp) : option ecp :=
  a <- fp_add r (ex P) (ez P) ;;
  a <- fp_norm r a ;;
  aa <- fp_sqr r a ;;
  b <- fp_sub r (ex P) (ez P) ;;
  b <- fp_norm r b ;;
  bb <- fp_sqr r b ;;
  cc <- fp_sub r aa bb ;;
  cc <- fp_norm r cc ;;
  x <- fp_mul r aa bb ;;
  a <- fp_imul r cc (Z.quot (CA + 2) 4) ;;
  bb <- fp_add r bb a ;;
  bb <- fp_norm r bb ;;
  z <- fp_mul r bb cc ;;
  Some (mkecp x (ey P) z).
Definition ecp_dbl (P : ecp) : option ecp :=
  match r_CURVETYPE r with
  | Weierstrass => if CA =? 0 then ecp_dbl_w0 P else ecp_dbl_w3 P
  | Edwards => ecp_dbl_e P
  | Montgomery => ecp_dbl_m P
  end.

(** ecp.rs:659-736 add, Weierstrass, CURVE_A = 0 *)
Definition ecp_add_w0 (P Q : ecp) : option ecp :=
  let b := 3 * CBI in
  t0 <- fp_mul r (ex P) (ex Q) ;;
  t1 <- fp_mul r (ey P) (ey Q) ;;
  t2 <- fp_mul r (ez P) (ez Q) ;;
  t3 <- fp_add r (ex P) (ey P) ;;
  t3 <- fp_norm r t3 ;;
  t4 <- fp_add r (ex Q) (ey Q) ;;
  t4 <- fp_norm r t4 ;;
  t3 <- fp_mul r t3 t4 ;;
  t4 <- fp_add r t0 t1 ;;
  t3 <- fp_sub r t3 t4 ;;
  t3 <- fp_norm r t3 ;;
  t4 <- fp_add r (ey P) (ez P) ;;
  t4 <- fp_norm r t4 ;;
  x3 <- fp_add r (ey Q) (ez Q) ;;
  x3 <- fp_norm r x3 ;;
  t4 <- fp_mul r t4 x3 ;;
  x3 <- fp_add r t1 t2 ;;
  t4 <- fp_sub r t4 x3 ;;
  t4 <- fp_norm r t4 ;;
  x3 <- fp_add r (ex P) (ez P) ;;
  x3 <- fp_norm r x3 ;;
  y3 <- fp_add r (ex Q) (ez Q) ;;
  y3 <- fp_norm r y3 ;;
  x3 <- fp_mul r x3 y3 ;;
  y3 <- fp_add r t0 t2 ;;
  y3 <- fp_rsub r y3 x3 ;;
  y3 <- fp_norm r y3 ;;
  x3 <- fp_add r t0 t0 ;;
  t0 <- fp_add r t0 x3 ;;
  t0 <- fp_norm r t0 ;;
  t2 <- fp_imul r t2 b ;;
  z3 <- fp_add r t1 t2 ;;
  z3 <- fp_norm r z3 ;;
  t1 <- fp_sub r t1 t2 ;;
  t1 <- fp_norm r t1 ;;
  y3 <- fp_imul r y3 b ;;
  x3 <- fp_mul r y3 t4 ;;
  t2 <- fp_mul r t3 t1 ;;
  x3 <- fp_rsub r x3 t2 ;;
  y3 <- fp_mul r y3 t0 ;;
  t1 <- fp_mul r t1 z3 ;;
  y3 <- fp_add r y3 t1 ;;
  t0 <- fp_mul r t0 t3 ;;
  z3 <- fp_mul r z3 t4 ;;
  z3 <- fp_add r z3 t0 ;;
  x <- fp_norm r x3 ;;
  y <- fp_norm r y3 ;;
  z <- fp_norm r z3 ;;
  Some (mkecp x y z).
(** ecp.rs:736-850 add, Weierstrass, CURVE_A = -3 *)
Definition ecp_add_w3 (P Q : ecp) : option ecp :=
  b <- getb ;;
  t0 <- fp_mul r (ex P) (ex Q) ;;
  t1 <- fp_mul r (ey P) (ey Q) ;;
  t2 <- fp_mul r (ez P) (ez Q) ;;
  t3 <- fp_add r (ex P) (ey P) ;;
  t3 <- fp_norm r t3 ;;
  t4 <- fp_add r (ex Q) (ey Q) ;;
  t4 <- fp_norm r t4 ;;
  t3 <- fp_mul r t3 t4 ;;
  t4 <- fp_add r t0 t1 ;;
  t3 <- fp_sub r t3 t4 ;;
  t3 <- fp_norm r t3 ;;
  t4 <- fp_add r (ey P) (ez P) ;;
  t4 <- fp_norm r t4 ;;
  x3 <- fp_add r (ey Q) (ez Q) ;;
  x3 <- fp_norm r x3 ;;
  t4 <- fp_mul r t4 x3 ;;
  x3 <- fp_add r t1 t2 ;;
  t4 <- fp_sub r t4 x3 ;;
  t4 <- fp_norm r t4 ;;
  x3 <- fp_add r (ex P) (ez P) ;;
  x3 <- fp_norm r x3 ;;
  y3 <- fp_add r (ex Q) (ez Q) ;;
  y3 <- fp_norm r y3 ;;
  x3 <- fp_mul r x3 y3 ;;
  y3 <- fp_add r t0 t2 ;;
  y3 <- fp_rsub r y3 x3 ;;
  y3 <- fp_norm r y3 ;;
  z3 <- mulb b t2 ;;
  x3 <- fp_sub r y3 z3 ;;
  x3 <- fp_norm r x3 ;;
  z3 <- fp_add r x3 x3 ;;
  x3 <- fp_add r x3 z3 ;;
  z3 <- fp_sub r t1 x3 ;;
  z3 <- fp_norm r z3 ;;
  x3 <- fp_add r x3 t1 ;;
  x3 <- fp_norm r x3 ;;
  y3 <- mulb b y3 ;;
  t1 <- fp_add r t2 t2 ;;
  t2 <- fp_add r t2 t1 ;;
  y3 <- fp_sub r y3 t2 ;;
  y3 <- fp_sub r y3 t0 ;;
  y3 <- fp_norm r y3 ;;
  t1 <- fp_add r y3 y3 ;;
  y3 <- fp_add r y3 t1 ;;
  y3 <- fp_norm r y3 ;;
  t1 <- fp_add r t0 t0 ;;
  t0 <- fp_add r t0 t1 ;;
  t0 <- fp_sub r t0 t2 ;;
  t0 <- fp_norm r t0 ;;
  t1 <- fp_mul r t4 y3 ;;
  t2 <- fp_mul r t0 y3 ;;
  y3 <- fp_mul r x3 z3 ;;
  y3 <- fp_add r y3 t2 ;;
  x3 <- fp_mul r x3 t3 ;;
  x3 <- fp_sub r x3 t1 ;;
  z3 <- fp_mul r z3 t4 ;;
  t1 <- fp_mul r t3 t0 ;;
  z3 <- fp_add r z3 t1 ;;
  x <- fp_norm r x3 ;;
  y <- fp_norm r y3 ;;
  z <- fp_norm r z3 ;;
  Some (mkecp x y z).
(** ecp.rs:852-904 add, Edwards (CURVE_A is 1 or -1) *)
Definition ecp_add_e (P Q : ecp) : option ecp :=
  bb <- fp_new_big r (r_CURVE_B r) ;;
  a <- fp_mul r (ez P) (ez Q) ;;
  b <- fp_sqr r a ;;
  cc <- fp_mul r (ex P) (ex Q) ;;
  d <- fp_mul r (ey P) (ey Q) ;;
  e <- fp_mul r cc d ;;
  e <- fp_mul r e bb ;;
  f <- fp_sub r b e ;;
  g <- fp_add r b e ;;
  e <- (if CA =? 1 then fp_sub r d cc else Some e) ;;
  cc <- fp_add r cc d ;;
  b <- fp_add r (ex P) (ey P) ;;
  d <- fp_add r (ex Q) (ey Q) ;;
  b <- fp_norm r b ;;
  d <- fp_norm r d ;;
  b <- fp_mul r b d ;;
  b <- fp_sub r b cc ;;
  b <- fp_norm r b ;;
  f <- fp_norm r f ;;
  b <- fp_mul r b f ;;
  x <- fp_mul r a b ;;
  g <- fp_norm r g ;;
  cc <- (if CA =? 1 then e <- fp_norm r e ;; fp_mul r e g else Some cc) ;;
  cc <- (if CA =? -1 then cc <- fp_norm r cc ;; fp_mul r cc g else Some cc) ;;
  y <- fp_mul r a cc ;;
  z <- fp_mul r f g ;;
  Some (mkecp x y z).
(** ecp.rs:659-907 add (does nothing on a Montgomery curve) *)
Definition ecp_add (P Q : ecp) : option ecp :=
  match r_CURVETYPE r with
  | Weierstrass => if CA =? 0 then ecp_add_w0 P Q else ecp_add_w3 P Q
  | Edwards => ecp_add_e P Q
  | Montgomery => Some P
  end.
(** ecp.rs:910-946 dadd *)
Definition ecp_dadd (P Q W : ecp) : option ecp :=
  a <- fp_add r (ex P) (ez P) ;;
  b <- fp_sub r (ex P) (ez P) ;;
  cc <- fp_add r (ex Q) (ez Q) ;;
  d <- fp_sub r (ex Q) (ez Q) ;;
  a <- fp_norm r a ;;
  d <- fp_norm r d ;;
  da <- fp_mul r d a ;;
  cc <- fp_norm r cc ;;
  b <- fp_norm r b ;;
  cb <- fp_mul r cc b ;;
  a <- fp_add r da cb ;;
  a <- fp_norm r a ;;
  a <- fp_sqr r a ;;
  b <- fp_sub r da cb ;;
  b <- fp_norm r b ;;
  b <- fp_sqr r b ;;
  z <- fp_mul r (ex W) b ;;
  Some (mkecp a (ey P) z).
(** ecp.rs:949-953 sub *)
Definition ecp_sub (P Q : ecp) : option ecp := NQ <- ecp_neg Q ;; ecp_add P NQ.

(** ecp.rs:983-1003 the Montgomery ladder; [bits] most significant first *)
Fixpoint ladder_m (bits : list nat) (e : list Z) (D R0 R1 : ecp) : option ecp :=
  match bits with
  | [] => Some R0
  | i :: bs =>
      b <- bit c e (Z.of_nat i) ;;
      P <- ecp_dadd R1 R0 D ;;
      sw <- ecp_cswap R0 R1 b ;;
      R0 <- ecp_dbl (fst sw) ;;
      sw <- ecp_cswap R0 P b ;;
      ladder_m bs e D (fst sw) (snd sw)
  end.
Definition ecp_mul_m (P : ecp) (e : list Z) : option ecp :=
  R1 <- ecp_dbl P ;;
  D <- ecp_affine P ;;
  nb <- nbits c e ;;
  ladder_m (rev (seq 0 (Z.to_nat nb - 1))) e D P R1.
(** ecp.rs:1004-1061 signed window *)
Fixpoint win_table (n : nat) (W Q : ecp) : option (list ecp) :=      (* W[i] = W[i-1] + Q *)
  match n with O => Some [] | S n' => W1 <- ecp_add W Q ;; rest <- win_table n' W1 Q ;; Some (W1 :: rest) end.
Definition wrap8 (x : Z) : Z := wrap 8 x.
(** ecp.rs:1044-1049 and 1146-1155: [k] bits per digit (4 in mul, 2 in mul2), lookahead one bit; returns the digits
    (least significant first) and what is left *)
Fixpoint recode (n : nat) (k : Z) (t : list Z) : option (list Z * list Z) :=
  match n with
  | O => Some ([], t)
  | S n' =>
      lb <- lastbits c t (k + 1) ;;
      let w := fst lb - 2 ^ k in
      t <- dec c (snd lb) w ;;
      t <- norm c t ;;
      q <- fshr c t k ;;
      rest <- recode n' k (snd q) ;;
      Some (w :: fst rest, snd rest)
  end.
Fixpoint dbln (n : nat) (P : ecp) : option ecp := match n with O => Some P | S n' => P1 <- ecp_dbl P ;; dbln n' P1 end.
(** ecp.rs:1053-1060 and 1160-1165: digits most significant first; Q is the scratch point *)
Fixpoint win_loop (k : nat) (W : list ecp) (ds : list Z) (P Q : ecp) : option ecp :=
  match ds with
  | [] => Some P
  | d :: ds' =>
      Q <- ecp_selector Q W d ;;
      P <- dbln k P ;;
      P <- ecp_add P Q ;;
      win_loop k W ds' P Q
  end.
(** ecp.rs:1026-1034: e+1 or e+2, whichever is odd, and the flags (s, ns) *)
Definition make_odd (e : list Z) : option (list Z * Z) :=
  let s := parity e in
  t <- inc c e 1 ;;
  t <- norm c t ;;
  let ns := parity t in
  mt <- inc c t 1 ;;
  mt <- norm c mt ;;
  t <- cmove c t mt s ;;
  Some (t, ns).
Definition ecp_mul_w (P : ecp) (e : list Z) : option ecp :=
  let ct := 1 + (Z.of_nat (NLEN c) * BASEBITS c + 3) / 4 in
  Q <- ecp_dbl P ;;
  W' <- win_table 7 P Q ;;
  let W := P :: W' in
  tn <- make_odd e ;;
  let '(t, ns) := tn in
  Q <- ecp_cmove Q P ns ;;
  let C := Q in
  nbt <- nbits c t ;;
  let nb := 1 + (nbt + 3) / 4 in
  if nb <? ct then
    dt <- recode (Z.to_nat nb) 4 t ;;
    lb <- lastbits c (snd dt) 5 ;;
    let top := wrap8 (fst lb) in
    if 0 <? top then                                    (* (w[nb] as usize) - 1 does not underflow, and the index is positive *)
      P0 <- nth_error W (Z.to_nat ((top - 1) / 2)) ;;
      P1 <- win_loop 4 W (rev (map wrap8 (fst dt))) P0 Q ;;
      ecp_sub P1 C
    else None
  else None.
(** ecp.rs:979-1065 mul *)
Definition ecp_mul (P : ecp) (e : list Z) : option ecp :=
  i <- (if iszilch e then Some true else ecp_is_infinity P) ;;
  if (i : bool) then ecp_new else
  T <- (if is_mont then ecp_mul_m P e else ecp_mul_w P e) ;;
  ecp_affine T.
(** ecp.rs:956-976 pinmul (e and bts are i32) *)
Fixpoint ladder_p (bits : list nat) (e : Z) (R0 R1 : ecp) : option ecp :=
  match bits with
  | [] => Some R0
  | i :: bs =>
      let b := Z.land (Z.shiftr e (Z.of_nat i)) 1 in
      P <- ecp_add R1 R0 ;;
      sw <- ecp_cswap R0 R1 b ;;
      R0 <- ecp_dbl (fst sw) ;;
      sw <- ecp_cswap R0 P b ;;
      ladder_p bs e (fst sw) (snd sw)
  end.
Definition ecp_pinmul (P : ecp) (e : Z) (bts : nat) : option ecp :=
  if is_mont then ecp_mul P (big_new_int c e) else
  R0 <- ecp_new ;;
  Q <- ladder_p (rev (seq 0 bts)) e R0 P ;;
  ecp_affine Q.
(** the digit combination of ecp.rs:1146-1156: both windows are recoded in lock step *)
Fixpoint map2 (f : Z -> Z -> Z) (a b : list Z) : list Z :=
  match a, b with x :: a', y :: b' => f x y :: map2 f a' b' | _, _ => [] end.
(** ecp.rs:1069-1169 mul2 *)
Definition ecp_mul2 (P : ecp) (e : list Z) (Q : ecp) (f : list Z) : option ecp :=
  let ct := 1 + (Z.of_nat (NLEN c) * BASEBITS c + 1) / 2 in
  W1 <- ecp_sub P Q ;;
  W2 <- ecp_add P Q ;;
  S <- ecp_dbl Q ;;
  W0 <- ecp_sub W1 S ;;
  W3 <- ecp_add W2 S ;;
  T <- ecp_dbl P ;;
  W5 <- ecp_add W1 T ;;
  W6 <- ecp_add W2 T ;;
  W4 <- ecp_sub W5 S ;;
  W7 <- ecp_add W6 S ;;
  let W := [W0; W1; W2; W3; W4; W5; W6; W7] in
  tn <- make_odd e ;;
  let '(te, ns) := tn in
  T <- ecp_cmove T P ns ;;
  tn <- make_odd f ;;
  let '(tf, ns) := tn in
  S <- ecp_cmove S Q ns ;;
  C <- ecp_add T S ;;
  mt <- add c te tf ;;
  mt <- norm c mt ;;
  nbm <- nbits c mt ;;
  let nb := 1 + (nbm + 1) / 2 in
  if nb <? ct then
    de <- recode (Z.to_nat nb) 2 te ;;
    df <- recode (Z.to_nat nb) 2 tf ;;
    le <- lastbits c (snd de) 3 ;;
    lf <- lastbits c (snd df) 3 ;;
    let top := wrap8 (4 * fst le + fst lf) in
    if 0 <? top then
      S0 <- nth_error W (Z.to_nat ((top - 1) / 2)) ;;
      S1 <- win_loop 2 W (rev (map2 (fun a b => wrap8 (4 * a + b)) (fst de) (fst df))) S0 T ;;
      S2 <- ecp_sub S1 C ;;
      ecp_affine S2
    else None
  else None.
(** ecp.rs:1172-1192 cfp *)
Definition ecp_cfp (P : ecp) : option ecp :=
  let cf := r_COF_I r in
  if cf =? 1 then Some P
  else if cf =? 4 then dbln 2 P
  else if cf =? 8 then dbln 3 P
  else ecp_mul P (r_COF r).
(** ecp.rs:1195-1221 mapit: [fuel] bounds the trial loop, which the code leaves unbounded *)
Fixpoint mapit_loop (fuel : nat) (x : list Z) : option ecp :=
  match fuel with
  | O => None
  | S f =>
      P <- (if is_mont then ecp_new_big x else ecp_new_bigint x 0) ;;
      x <- inc c x 1 ;;
      x <- norm c x ;;
      i <- ecp_is_infinity P ;;
      if (i : bool) then mapit_loop f x else
      P <- ecp_cfp P ;;
      i <- ecp_is_infinity P ;;
      if (i : bool) then mapit_loop f x else Some P
  end.
Definition ecp_mapit (fuel : nat) (h : list Z) : option ecp :=
  x <- frombytes c h ;;
  x <- rmod c x (r_MODULUS r) ;;
  mapit_loop fuel x.
(** ecp.rs:1223-1237 generator *)
Definition ecp_generator : option ecp :=
  if is_mont then ecp_new_big (r_GX r) else ecp_new_bigs (r_GX r) (r_GY r).
End Ecp.
