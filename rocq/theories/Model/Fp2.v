(** Model of /repo/src/fp2.rs: the quadratic extension FP2 = FP[i], i^2 = -1, over any ROM.
    [None] = panic.  A method that overwrites [self] returns the new value.
    Not modelled: tostring, to_hex, from_hex (string formatting). *)
From Verif Require Export Base.Word Model.Big Model.Roms Model.Fp.

(** fp2.rs:28-32 *)
Record fp2 := mkfp2 { f2a : fp; f2b : fp }.

Section Fp2.
Variable r : rom.
Notation c := (r_cfg r).

(** fp.rs:693-697 jacobi *)
Definition fp_jacobi (f : fp) : option Z := x <- fp_redc r f ;; jacobi c x (r_MODULUS r).

(** fp2.rs:55-95 new, new_int, new_ints, new_fps, new_bigs, new_fp, new_big *)
Definition fp2_new : fp2 := mkfp2 (fp_new r) (fp_new r).
Definition fp2_new_int (a : Z) : option fp2 := x <- fp_new_int r a ;; Some (mkfp2 x (fp_new r)).
Definition fp2_new_ints (a b : Z) : option fp2 := x <- fp_new_int r a ;; y <- fp_new_int r b ;; Some (mkfp2 x y).
Definition fp2_new_bigs (a b : list Z) : option fp2 := x <- fp_new_big r a ;; y <- fp_new_big r b ;; Some (mkfp2 x y).
Definition fp2_one : option fp2 := x <- fp_one r ;; Some (mkfp2 x (fp_zero r)).                 (* 148-151 *)
(** fp2.rs:99-108 reduce, norm *)
Definition fp2_reduce (x : fp2) : option fp2 := a <- fp_reduce r (f2a x) ;; b <- fp_reduce r (f2b x) ;; Some (mkfp2 a b).
Definition fp2_norm (x : fp2) : option fp2 := a <- fp_norm r (f2a x) ;; b <- fp_norm r (f2b x) ;; Some (mkfp2 a b).
(** fp2.rs:111-129 iszilch (&& is lazy), cmove, isunity, equals *)
Definition fp2_iszilch (x : fp2) : option bool := a <- fp_iszilch r (f2a x) ;; if a then fp_iszilch r (f2b x) else Some false.
Definition fp2_cmove (x g : fp2) (d : Z) : option fp2 := a <- fp_cmove r (f2a x) (f2a g) d ;; b <- fp_cmove r (f2b x) (f2b g) d ;; Some (mkfp2 a b).
Definition fp2_isunity (x : fp2) : option bool :=
  one <- fp_new_int r 1 ;; a <- fp_equals r (f2a x) one ;; if a then fp_iszilch r (f2b x) else Some false.
Definition fp2_equals (x y : fp2) : option bool := a <- fp_equals r (f2a x) (f2a y) ;; if a then fp_equals r (f2b x) (f2b y) else Some false.
(** fp2.rs:154-163 neg *)
Definition fp2_neg (x : fp2) : option fp2 :=
  m <- fp_add r (f2a x) (f2b x) ;;
  m <- fp_neg r m ;;
  t <- fp_add r m (f2b x) ;;
  b <- fp_add r m (f2a x) ;;
  Some (mkfp2 t b).
(** fp2.rs:166-169 conj *)
Definition fp2_conj (x : fp2) : option fp2 := b <- fp_neg r (f2b x) ;; b <- fp_norm r b ;; Some (mkfp2 (f2a x) b).
(** fp2.rs:172-193 add, dbl, sub, rsub *)
Definition fp2_add (x y : fp2) : option fp2 := a <- fp_add r (f2a x) (f2a y) ;; b <- fp_add r (f2b x) (f2b y) ;; Some (mkfp2 a b).
Definition fp2_dbl (x : fp2) : option fp2 := a <- fp_dbl r (f2a x) ;; b <- fp_dbl r (f2b x) ;; Some (mkfp2 a b).
Definition fp2_sub (x y : fp2) : option fp2 := m <- fp2_neg y ;; fp2_add x m.
Definition fp2_rsub (x y : fp2) : option fp2 := m <- fp2_neg x ;; fp2_add m y.
(** fp2.rs:196-205 pmul, imul *)
Definition fp2_pmul (x : fp2) (s : fp) : option fp2 := a <- fp_mul r (f2a x) s ;; b <- fp_mul r (f2b x) s ;; Some (mkfp2 a b).
Definition fp2_imul (x : fp2) (k : Z) : option fp2 := a <- fp_imul r (f2a x) k ;; b <- fp_imul r (f2b x) k ;; Some (mkfp2 a b).
(** fp2.rs:208-226 sqr *)
Definition fp2_sqr (x : fp2) : option fp2 :=
  w1 <- fp_add r (f2a x) (f2b x) ;;
  w3 <- fp_add r (f2a x) (f2a x) ;;
  w3 <- fp_norm r w3 ;;
  b <- fp_mul r (f2b x) w3 ;;
  mb <- fp_neg r (f2b x) ;;
  a <- fp_add r (f2a x) mb ;;
  w1 <- fp_norm r w1 ;;
  a <- fp_norm r a ;;
  a <- fp_mul r a w1 ;;
  Some (mkfp2 a b).
(** dbig.rs:98-104 ucopy: the upper half *)
Definition dbig_ucopy (x : list Z) : list Z := repeat 0 (NLEN c) ++ x.
(** fp2.rs:229-270 mul.  The excess counters are i32, their sum is checked; the product is taken in i64. *)
Definition fp2_mul (x y : fp2) : option fp2 :=
  sx <- chk 32 (fxes (f2a x) + fxes (f2b x)) ;;
  sy <- chk 32 (fxes (f2a y) + fxes (f2b y)) ;;
  pxy <- chk 64 (sx * sy) ;;
  x <- (if FEXCESS r <? pxy then
          a <- (if 1 <? fxes (f2a x) then fp_reduce r (f2a x) else Some (f2a x)) ;;
          b <- (if 1 <? fxes (f2b x) then fp_reduce r (f2b x) else Some (f2b x)) ;;
          Some (mkfp2 a b)
        else Some x) ;;
  let pr := dbig_ucopy (r_MODULUS r) in
  let xa := fx (f2a x) in let xb := fx (f2b x) in let ya := fx (f2a y) in let yb := fx (f2b y) in
  a <- mul c xa ya ;;
  b <- mul c xb yb ;;
  cc <- add c xa xb ;; cc <- norm c cc ;;
  dd <- add c ya yb ;; dd <- norm c dd ;;
  e <- mul c cc dd ;;
  f <- add c a b ;;                      (* dbig.rs:115-119 *)
  b <- rsub c b pr ;;                    (* dbig.rs:129-133 *)
  a <- add c a b ;; a <- norm c a ;;     (* dbig.rs:151-159 *)
  e <- sub c e f ;; e <- norm c e ;;     (* dbig.rs:122-126 *)
  ra <- fp_modulo r a ;;
  rb <- fp_modulo r e ;;
  Some (mkfp2 (mkfp ra 3) (mkfp rb 2)).
(** fp2.rs:275-310 sqrt: the flag and the new value *)
Definition fp2_sqrt (x : fp2) : option (bool * fp2) :=
  z <- fp2_iszilch x ;;
  if z then Some (true, x) else
  w1 <- fp_sqr r (f2b x) ;;
  w2 <- fp_sqr r (f2a x) ;;
  w1 <- fp_add r w1 w2 ;;
  j <- fp_jacobi w1 ;;
  if negb (j =? 1) then Some (false, fp2_new) else
  w1 <- fp_sqrt r w1 ;;
  w2 <- fp_add r (f2a x) w1 ;;
  w2 <- fp_norm r w2 ;;
  w2 <- fp_div2 r w2 ;;
  j <- fp_jacobi w2 ;;
  ow <- (if negb (j =? 1) then
           w2 <- fp_sub r (f2a x) w1 ;;
           w2 <- fp_norm r w2 ;;
           w2 <- fp_div2 r w2 ;;
           j <- fp_jacobi w2 ;;
           Some (if negb (j =? 1) then None else Some w2)
         else Some (Some w2)) ;;
  match ow with
  | None => Some (false, fp2_new)
  | Some w2 =>
      w1 <- fp_sqrt r w2 ;;
      w3 <- fp_dbl r w1 ;;
      w3 <- fp_inverse r w3 ;;
      b <- fp_mul r (f2b x) w3 ;;
      Some (true, mkfp2 w1 b)
  end.
(** fp2.rs:334-347 inverse *)
Definition fp2_inverse (x : fp2) : option fp2 :=
  x <- fp2_norm x ;;
  w1 <- fp_sqr r (f2a x) ;;
  w2 <- fp_sqr r (f2b x) ;;
  w1 <- fp_add r w1 w2 ;;
  w1 <- fp_inverse r w1 ;;
  a <- fp_mul r (f2a x) w1 ;;
  w1 <- fp_neg r w1 ;;
  w1 <- fp_norm r w1 ;;
  b <- fp_mul r (f2b x) w1 ;;
  Some (mkfp2 a b).
(** fp2.rs:350-371 div2, times_i, mul_ip *)
Definition fp2_div2 (x : fp2) : option fp2 := a <- fp_div2 r (f2a x) ;; b <- fp_div2 r (f2b x) ;; Some (mkfp2 a b).
Definition fp2_times_i (x : fp2) : option fp2 := a <- fp_neg r (f2b x) ;; Some (mkfp2 a (f2a x)).
Definition fp2_mul_ip (x : fp2) : option fp2 := a <- fp_neg r (f2b x) ;; fp2_add (mkfp2 a (f2a x)) x.
(** fp2.rs:374-396 div_ip2, div_ip *)
Definition fp2_div_ip2 (x : fp2) : option fp2 :=
  x <- fp2_norm x ;;
  a <- fp_add r (f2a x) (f2b x) ;;
  b <- fp_sub r (f2b x) (f2a x) ;;
  fp2_norm (mkfp2 a b).
Definition fp2_div_ip (x : fp2) : option fp2 := t <- fp2_div_ip2 x ;; fp2_div2 t.
(** fp2.rs:399-404 spmt *)
Definition fp2_spmt (x : fp2) : option fp2 := a <- fp_add r (f2a x) (f2b x) ;; b <- fp_sub r (f2a x) (f2b x) ;; Some (mkfp2 a b).
(** fp2.rs:413-419 sgn0 *)
Definition fp2_sgn0 (x : fp2) : option bool := z <- fp_iszilch r (f2a x) ;; if z then fp_sgn0 r (f2b x) else fp_sgn0 r (f2a x).
End Fp2.
