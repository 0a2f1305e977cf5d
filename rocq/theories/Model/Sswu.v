(** Model of simplified_swu_fp and simplified_swu_fp2 (src/hash_to_curve.rs:190-319) and of the ROM constants they use. *)
From Verif Require Import Base.Word Model.Big Model.Roms Model.Fp Model.Fp2 Spec.Bytes.

Section Sswu.
Variable r : rom.
Notation c := (r_cfg r).

(** roms/rom_bls381_64.rs:184-186, rom_bls381_32.rs:130-132. [hex::decode] of the 96 digits is the 48-byte big-endian string of the number. *)
Definition SSWU_A1 : option fp := b <- frombytes c (i2osp 0x00144698a3b8e9433d693a02c96d4982b0ea985383ee66a8d8e8981aefd881ac98936f8da0e0f97f5cf428082d584c1d 48) ;; fp_new_big r b.
Definition SSWU_B1 : option fp := b <- frombytes c (i2osp 0x12e2908d11688030018b12e8753eee3b2016c1f0f24f4070a0b9c14fcef35ef55a23215a316ceaa5d1cc48e98e172be0 48) ;; fp_new_big r b.
Definition SSWU_Z1 : option fp := fp_new_int r 11.

(** gx = x^3 + A x + B (hash_to_curve.rs:218-223 and 236-241) *)
Definition sswu_gx (A B x : fp) : option fp :=
  g <- fp_sqr r x ;; g <- fp_add r g A ;; g <- fp_mul r g x ;; fp_add r g B.
(** hash_to_curve.rs:190-255. [FP::sqrt] takes [&mut self] and leaves the reduced form in it: the second call acts on gx itself. *)
Definition simplified_swu_fp (u : fp) : option (fp * fp) :=
  A <- SSWU_A1 ;; B <- SSWU_B1 ;; Zc <- SSWU_Z1 ;;
  tmp1 <- fp_sqr r u ;; tmp1 <- fp_mul r tmp1 Zc ;;
  tv1 <- fp_sqr r tmp1 ;; tv1 <- fp_add r tv1 tmp1 ;; tv1 <- fp_inverse r tv1 ;;
  one <- fp_new_int r 1 ;;
  x <- fp_add r tv1 one ;; x <- fp_mul r x B ;; x <- fp_neg r x ;;
  ai <- fp_inverse r A ;; x <- fp_mul r x ai ;;
  z <- fp_iszilch r tv1 ;;
  x <- (if z then x <- fp_inverse r Zc ;; x <- fp_mul r x B ;; fp_mul r x ai else Some x) ;;
  g <- sswu_gx A B x ;;
  y <- fp_sqrt r g ;;
  y2 <- fp_sqr r y ;;
  q <- fp_equals r g y2 ;;
  xy <- (if negb q then
           x <- fp_mul r x tmp1 ;;
           g <- sswu_gx A B x ;;
           y <- fp_sqrt r g ;;
           g <- fp_reduce r g ;;
           y2 <- fp_sqr r y ;;
           q <- fp_equals r g y2 ;;
           (if q then Some (x, y) else None)
         else Some (x, y)) ;;
  su <- fp_sgn0 r u ;; sy <- fp_sgn0 r (snd xy) ;;
  y <- (if negb (Bool.eqb su sy) then fp_neg r (snd xy) else Some (snd xy)) ;;
  Some (fst xy, y).
End Sswu.
