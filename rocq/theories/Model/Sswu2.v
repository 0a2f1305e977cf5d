(** Model of simplified_swu_fp2 (src/hash_to_curve.rs:260-319) and of the ROM constants it uses. *)
From Verif Require Import Base.Word Model.Big Model.Roms Model.Fp Model.Fp2.

Section Sswu2.
Variable r : rom.

(** roms/rom_bls381_64.rs:189-191, rom_bls381_32.rs:135-137 *)
Definition SSWU_A2 : option fp2 := fp2_new_ints r 0 240.
Definition SSWU_B2 : option fp2 := fp2_new_ints r 1012 1012.
Definition SSWU_Z2 : option fp2 := fp2_new_ints r (-2) (-1).
(** gx = x^3 + A x + B (hash_to_curve.rs:289-293 and 301-305) *)
Definition sswu2_gx (A B x : fp2) : option fp2 :=
  g <- fp2_sqr r x ;; g <- fp2_add r g A ;; g <- fp2_mul r g x ;; fp2_add r g B.
(** hash_to_curve.rs:260-319.  The failing [assert!] of lines 308 is [None]. *)
Definition simplified_swu_fp2 (u : fp2) : option (fp2 * fp2) :=
  A <- SSWU_A2 ;; B <- SSWU_B2 ;; Zc <- SSWU_Z2 ;;
  tmp1 <- fp2_sqr r u ;; tmp1 <- fp2_mul r tmp1 Zc ;;
  tv1 <- fp2_sqr r tmp1 ;; tv1 <- fp2_add r tv1 tmp1 ;; tv1 <- fp2_inverse r tv1 ;;
  one <- fp2_new_ints r 1 0 ;;
  x <- fp2_add r tv1 one ;; x <- fp2_mul r x B ;; x <- fp2_neg r x ;;
  ai <- fp2_inverse r A ;; x <- fp2_mul r x ai ;;
  z <- fp2_iszilch r tv1 ;;
  x <- (if z then x <- fp2_inverse r Zc ;; x <- fp2_mul r x B ;; fp2_mul r x ai else Some x) ;;
  g <- sswu2_gx A B x ;;
  by1 <- fp2_sqrt r g ;;
  xy <- (if fst by1 then Some (x, snd by1) else
           x <- fp2_mul r x tmp1 ;;
           g <- sswu2_gx A B x ;;
           by2 <- fp2_sqrt r g ;;
           (if fst by2 then Some (x, snd by2) else None)) ;;
  su <- fp2_sgn0 r u ;; sy <- fp2_sgn0 r (snd xy) ;;
  y <- (if negb (Bool.eqb su sy) then fp2_neg r (snd xy) else Some (snd xy)) ;;
  Some (fst xy, y).
End Sswu2.
