(** Model of the G2 encodings of src/bls381/core.rs.  [Result] is [result], [None] is a panic. *)
From Verif Require Import Base.Word Base.Arr Model.Big Model.Roms Model.Fp Model.Fp2 Model.Fp12 Model.HashToCurve Model.Bls Model.Ecp2.

Section G2.
Variable r : rom.
Variable bd : build.
Notation c := (r_cfg r).
Notation mb := (Bls.mb r).
(** roms/rom_bls381_*.rs: SEXTIC_TWIST = MType *)
Notation tw := MType.

(** core.rs:121-130 zcash_cmp_fp2 *)
Definition zcash_cmp_fp2 (a b : fp2) : option Z :=
  ab <- fp2_getb r a ;; bb <- fp2_getb r b ;;
  let k := comp ab bb in
  if k =? 0 then aa <- fp2_geta r a ;; ba <- fp2_geta r b ;; Some (comp aa ba) else Some k.
(** core.rs:301-330 serialize_g2.  tobytes writes the whole slice it is given. *)
Definition serialize_g2 (P : ecp2) : option (list Z) :=
  i <- ecp2_is_infinity r P ;;
  if (i : bool) then Some ((128 + 64) :: repeat 0 (2 * mb - 1)) else
  x <- ecp2_getx r P ;;
  xa <- fp2_geta r x ;; ba <- tobytes c xa (repeat 0 mb) ;;
  xb <- fp2_getb r x ;; bb <- tobytes c xb (repeat 0 mb) ;;
  y <- ecp2_gety r P ;;
  yn <- fp2_neg r y ;;
  k <- zcash_cmp_fp2 y yn ;;
  res <- (if 0 <? k then add0 bd (bb ++ ba) Y_FLAG else Some (bb ++ ba)) ;;
  add0 bd res COMPRESION_FLAG.
(** core.rs:335-357 serialize_uncompressed_g2 *)
Definition serialize_uncompressed_g2 (P : ecp2) : option (list Z) :=
  i <- ecp2_is_infinity r P ;;
  if (i : bool) then Some (INFINITY_FLAG :: repeat 0 (4 * mb - 1)) else
  x <- ecp2_getx r P ;;
  xb <- fp2_getb r x ;; b0 <- tobytes c xb (repeat 0 mb) ;;
  xa <- fp2_geta r x ;; b1 <- tobytes c xa (repeat 0 mb) ;;
  y <- ecp2_gety r P ;;
  yb <- fp2_getb r y ;; b2 <- tobytes c yb (repeat 0 mb) ;;
  ya <- fp2_geta r y ;; b3 <- tobytes c ya (repeat 0 mb) ;;
  Some (b0 ++ b1 ++ b2 ++ b3).
(** core.rs:376-424 deserialize_compressed_g2.  [||] is lazy, its operands have no effect. *)
Definition deserialize_compressed_g2 (b : list Z) : option (result ecp2) :=
  if negb (length b =? 2 * mb)%nat then Some (Err InvalidG2Size) else
  match b with
  | [] => None
  | h :: t =>
      if negb (Z.land h INFINITY_FLAG =? 0) then
        if trailing_zero b then P <- ecp2_new r ;; Some (Ok P) else Some (Err InvalidPoint)
      else
      let y_flag := 0 <? Z.land h Y_FLAG in
      let b' := Z.land h 31 :: t in
      xi <- frombytes c (firstn mb b') ;;
      xr <- frombytes c (skipn mb b') ;;
      if (0 <=? comp xi (r_MODULUS r)) || (0 <=? comp xr (r_MODULUS r)) then Some (Err InvalidPoint) else
      x <- fp2_new_bigs r xr xi ;;
      P <- ecp2_new_fp2 r tw x ;;
      i <- ecp2_is_infinity r P ;;
      if (i : bool) then Some (Err InvalidPoint) else
      N <- ecp2_neg r P ;;
      y <- ecp2_gety r P ;;
      yn <- ecp2_gety r N ;;
      k <- zcash_cmp_fp2 y yn ;;
      Some (Ok (if Bool.eqb (0 <? k) y_flag then P else N))
  end.
(** core.rs:427-476 deserialize_uncompressed_g2 *)
Definition deserialize_uncompressed_g2 (b : list Z) : option (result ecp2) :=
  if negb (length b =? 4 * mb)%nat then Some (Err InvalidG2Size) else
  match b with
  | [] => None
  | h :: t =>
      if negb (Z.land h INFINITY_FLAG =? 0) then
        if trailing_zero b then P <- ecp2_new r ;; Some (Ok P) else Some (Err InvalidPoint)
      else
      if 0 <? Z.land h Y_FLAG then Some (Err InvalidYFlag) else
      let b' := Z.land h 31 :: t in
      xi <- frombytes c (firstn mb b') ;;
      xr <- frombytes c (firstn mb (skipn mb b')) ;;
      yi <- frombytes c (firstn mb (skipn (2 * mb) b')) ;;
      yr <- frombytes c (skipn (3 * mb) b') ;;
      if (0 <=? comp xi (r_MODULUS r)) || (0 <=? comp xr (r_MODULUS r)) || (0 <=? comp yi (r_MODULUS r)) || (0 <=? comp yr (r_MODULUS r))
      then Some (Err InvalidPoint) else
      x <- fp2_new_bigs r xr xi ;;
      y <- fp2_new_bigs r yr yi ;;
      P <- ecp2_new_fp2s r tw x y ;;
      i <- ecp2_is_infinity r P ;;
      if (i : bool) then Some (Err InvalidPoint) else Some (Ok P)
  end.
(** core.rs:362-373 deserialize_g2 *)
Definition deserialize_g2 (b : list Z) : option (result ecp2) :=
  match b with
  | [] => Some (Err InvalidG2Size)
  | h :: _ => if Z.land h COMPRESION_FLAG =? 0 then deserialize_uncompressed_g2 b else deserialize_compressed_g2 b
  end.
End G2.
