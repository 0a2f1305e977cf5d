(** Model of /repo/src/fp4.rs: FP4 = FP2[w], w^2 = 1 + i.  [None] = panic.
    Not modelled: tostring, to_hex, from_hex (string formatting), xtr_pow, xtr_pow2 (compressed exponentiation loops). *)
From Verif Require Export Base.Word Model.Big Model.Roms Model.Fp Model.Fp2.

(** fp4.rs:27-30 *)
Record fp4 := mkfp4 { f4a : fp2; f4b : fp2 }.

Section Fp4.
Variable r : rom.
Notation c := (r_cfg r).

(** fp4.rs:40-75 new, new_int, new_fp2 (set_fp2), set_fp2h *)
Definition fp4_new : fp4 := mkfp4 (fp2_new r) (fp2_new r).
Definition fp4_new_int (a : Z) : option fp4 := x <- fp2_new_int r a ;; Some (mkfp4 x (fp2_new r)).
Definition fp4_of2 (x : fp2) : fp4 := mkfp4 x (fp2_new r).
Definition fp4_of2h (x : fp2) : fp4 := mkfp4 (fp2_new r) x.
(** fp4.rs:78-92 reduce, norm, cmove *)
Definition fp4_reduce (x : fp4) : option fp4 := a <- fp2_reduce r (f4a x) ;; b <- fp2_reduce r (f4b x) ;; Some (mkfp4 a b).
Definition fp4_norm (x : fp4) : option fp4 := a <- fp2_norm r (f4a x) ;; b <- fp2_norm r (f4b x) ;; Some (mkfp4 a b).
Definition fp4_cmove (x g : fp4) (d : Z) : option fp4 := a <- fp2_cmove r (f4a x) (f4a g) d ;; b <- fp2_cmove r (f4b x) (f4b g) d ;; Some (mkfp4 a b).
(** fp4.rs:95-127 iszilch, isunity, isreal, equals (&& is lazy) *)
Definition fp4_iszilch (x : fp4) : option bool := a <- fp2_iszilch r (f4a x) ;; if a then fp2_iszilch r (f4b x) else Some false.
Definition fp4_isunity (x : fp4) : option bool :=
  one <- fp2_new_int r 1 ;; a <- fp2_equals r (f4a x) one ;; if a then fp2_iszilch r (f4b x) else Some false.
Definition fp4_equals (x y : fp4) : option bool := a <- fp2_equals r (f4a x) (f4a y) ;; if a then fp2_equals r (f4b x) (f4b y) else Some false.
(** fp4.rs:136-139 one *)
Definition fp4_one : option fp4 := x <- fp2_one r ;; Some (mkfp4 x (fp2_new r)).
(** fp4.rs:142-154 neg *)
Definition fp4_neg (x : fp4) : option fp4 :=
  x <- fp4_norm x ;;
  m <- fp2_add r (f4a x) (f4b x) ;;
  m <- fp2_neg r m ;;
  t <- fp2_add r m (f4b x) ;;
  b <- fp2_add r m (f4a x) ;;
  fp4_norm (mkfp4 t b).
(** fp4.rs:157-166 conj, nconj *)
Definition fp4_conj (x : fp4) : option fp4 := b <- fp2_neg r (f4b x) ;; fp4_norm (mkfp4 (f4a x) b).
Definition fp4_nconj (x : fp4) : option fp4 := a <- fp2_neg r (f4a x) ;; fp4_norm (mkfp4 a (f4b x)).
(** fp4.rs:169-194 add, padd, dbl, sub, rsub *)
Definition fp4_add (x y : fp4) : option fp4 := a <- fp2_add r (f4a x) (f4a y) ;; b <- fp2_add r (f4b x) (f4b y) ;; Some (mkfp4 a b).
Definition fp4_padd (x : fp4) (y : fp2) : option fp4 := a <- fp2_add r (f4a x) y ;; Some (mkfp4 a (f4b x)).
Definition fp4_dbl (x : fp4) : option fp4 := a <- fp2_dbl r (f4a x) ;; b <- fp2_dbl r (f4b x) ;; Some (mkfp4 a b).
Definition fp4_sub (x y : fp4) : option fp4 := m <- fp4_neg y ;; fp4_add x m.
Definition fp4_rsub (x y : fp4) : option fp4 := m <- fp4_neg x ;; fp4_add m y.
(** fp4.rs:197-212 pmul, qmul, imul *)
Definition fp4_pmul (x : fp4) (s : fp2) : option fp4 := a <- fp2_mul r (f4a x) s ;; b <- fp2_mul r (f4b x) s ;; Some (mkfp4 a b).
Definition fp4_qmul (x : fp4) (s : fp) : option fp4 := a <- fp2_pmul r (f4a x) s ;; b <- fp2_pmul r (f4b x) s ;; Some (mkfp4 a b).
Definition fp4_imul (x : fp4) (k : Z) : option fp4 := a <- fp2_imul r (f4a x) k ;; b <- fp2_imul r (f4b x) k ;; Some (mkfp4 a b).
(** fp4.rs:216-245 sqr *)
Definition fp4_sqr (x : fp4) : option fp4 :=
  t3 <- fp2_mul r (f4a x) (f4b x) ;;
  t1 <- fp2_add r (f4a x) (f4b x) ;;
  t2 <- fp2_mul_ip r (f4b x) ;;
  t2 <- fp2_add r t2 (f4a x) ;;
  t1 <- fp2_norm r t1 ;;
  t2 <- fp2_norm r t2 ;;
  a <- fp2_mul r t1 t2 ;;
  t2 <- fp2_mul_ip r t3 ;;
  t2 <- fp2_add r t2 t3 ;;
  t2 <- fp2_norm r t2 ;;
  t2 <- fp2_neg r t2 ;;
  a <- fp2_add r a t2 ;;
  b <- fp2_dbl r t3 ;;
  fp4_norm (mkfp4 a b).
(** fp4.rs:248-281 mul *)
Definition fp4_mul (x y : fp4) : option fp4 :=
  t1 <- fp2_mul r (f4a x) (f4a y) ;;
  t2 <- fp2_mul r (f4b x) (f4b y) ;;
  t3 <- fp2_add r (f4b y) (f4a y) ;;
  t4 <- fp2_add r (f4b x) (f4a x) ;;
  t3 <- fp2_norm r t3 ;;
  t4 <- fp2_norm r t4 ;;
  t4 <- fp2_mul r t4 t3 ;;
  t3 <- fp2_neg r t1 ;;
  t4 <- fp2_add r t4 t3 ;;
  t4 <- fp2_norm r t4 ;;
  t3 <- fp2_neg r t2 ;;
  b <- fp2_add r t4 t3 ;;
  t2 <- fp2_mul_ip r t2 ;;
  a <- fp2_add r t2 t1 ;;
  fp4_norm (mkfp4 a b).
(** fp4.rs:305-321 inverse *)
Definition fp4_inverse (x : fp4) : option fp4 :=
  t1 <- fp2_sqr r (f4a x) ;;
  t2 <- fp2_sqr r (f4b x) ;;
  t2 <- fp2_mul_ip r t2 ;;
  t2 <- fp2_norm r t2 ;;
  t1 <- fp2_sub r t1 t2 ;;
  t1 <- fp2_inverse r t1 ;;
  a <- fp2_mul r (f4a x) t1 ;;
  t1 <- fp2_neg r t1 ;;
  t1 <- fp2_norm r t1 ;;
  b <- fp2_mul r (f4b x) t1 ;;
  Some (mkfp4 a b).
(** fp4.rs:324-332 times_i *)
Definition fp4_times_i (x : fp4) : option fp4 :=
  s <- fp2_times_i r (f4b x) ;;
  t <- fp2_add r (f4b x) s ;;
  fp4_norm (mkfp4 t (f4a x)).
(** fp4.rs:335-339 frob *)
Definition fp4_frob (x : fp4) (f : fp2) : option fp4 :=
  a <- fp2_conj r (f4a x) ;;
  b <- fp2_conj r (f4b x) ;;
  b <- fp2_mul r b f ;;
  Some (mkfp4 a b).
(** fp4.rs:364-391 xtr_a, xtr_d *)
Definition fp4_xtr_a (x w y z : fp4) : option fp4 :=
  s <- fp4_sub w y ;;
  s <- fp4_norm s ;;
  s <- fp4_pmul s (f4a x) ;;
  t <- fp4_add w y ;;
  t <- fp4_norm t ;;
  t <- fp4_pmul t (f4b x) ;;
  t <- fp4_times_i t ;;
  s <- fp4_add s t ;;
  s <- fp4_add s z ;;
  fp4_norm s.
Definition fp4_xtr_d (x : fp4) : option fp4 :=
  s <- fp4_sqr x ;;
  w <- fp4_conj x ;;
  w <- fp4_dbl w ;;
  w <- fp4_norm w ;;
  s <- fp4_sub s w ;;
  fp4_reduce s.
(** fp4.rs:585-606 div2, div_i, div_2i *)
Definition fp4_div2 (x : fp4) : option fp4 := a <- fp2_div2 r (f4a x) ;; b <- fp2_div2 r (f4b x) ;; Some (mkfp4 a b).
Definition fp4_div_i (x : fp4) : option fp4 := u <- fp2_div_ip r (f4a x) ;; Some (mkfp4 (f4b x) u).
Definition fp4_div_2i (x : fp4) : option fp4 :=
  u <- fp2_div_ip2 r (f4a x) ;;
  v <- fp2_dbl r (f4b x) ;;
  v <- fp2_norm r v ;;
  Some (mkfp4 v u).
(** fp4.rs:610-664 sqrt: the flag and the new value *)
Definition fp4_sqrt (x : fp4) : option (bool * fp4) :=
  z <- fp4_iszilch x ;;
  if z then Some (true, x) else
  z <- fp2_iszilch r (f4b x) ;;
  if z then
    st <- fp2_sqrt r (f4a x) ;;
    let '(ok, t) := st in
    if ok then Some (true, mkfp4 t (fp2_new r))
    else
      t <- fp2_div_ip r t ;;
      st <- fp2_sqrt r t ;;
      Some (true, mkfp4 (fp2_new r) (snd st))
  else
    s <- fp2_sqr r (f4b x) ;;
    a <- fp2_sqr r (f4a x) ;;
    s <- fp2_mul_ip r s ;;
    s <- fp2_norm r s ;;
    a <- fp2_sub r a s ;;
    st <- fp2_sqrt r a ;;
    let '(ok, s) := st in
    if negb ok then Some (false, x) else
    a <- fp2_add r (f4a x) s ;;
    a <- fp2_norm r a ;;
    a <- fp2_div2 r a ;;
    st <- fp2_sqrt r a ;;
    st <- (if fst st then Some st else
             a <- fp2_sub r (f4a x) s ;;
             a <- fp2_norm r a ;;
             a <- fp2_div2 r a ;;
             fp2_sqrt r a) ;;
    let '(ok, a) := st in
    if negb ok then Some (false, x) else
    s <- fp2_add r a a ;;
    s <- fp2_inverse r s ;;
    t <- fp2_mul r (f4b x) s ;;
    Some (true, mkfp4 a t).
End Fp4.
