(** Model of G1 scalar multiplication with the curve endomorphism (/repo/src/pair.rs) for BLS curves, and of the subgroup check.
    [None] is a panic.  The ROM constants CURVE_BNX and CURVE_CRU are parameters. *)
From Verif Require Export Base.Word Base.Arr Model.Big Model.Roms Model.Fp Model.Ecp.
From Coq Require Import ZArith.

Section G1Mul.
Variable r : rom.
Variables bnx cru : list Z.   (* rom::CURVE_BNX, rom::CURVE_CRU *)
Notation c := (r_cfg r).
(** pair.rs:558-567 glv, the branch for BLS curves *)
Definition glv (e : list Z) : option (list Z * list Z) :=
  x2 <- smul c bnx bnx ;; u0 <- rmod c e x2 ;; u1 <- div c e x2 ;; u1 <- rsub c u1 (r_ORDER r) ;; Some (u0, u1).
(** pair.rs:625-631 and 633-639: the shorter of u and -u mod q; true: the opposite was taken *)
Definition shorter (u : list Z) : option (bool * list Z) :=
  np <- nbits c u ;; t <- modneg c u (r_ORDER r) ;; nn <- nbits c t ;; Some (if nn <? np then (true, t) else (false, u)).
Definition neg_if (b : bool) (P : ecp) : option ecp := if b then ecp_neg r P else Some P.
(** ecp.rs:264-266 mulx *)
Definition ecp_mulx (P : ecp) (k : fp) : option ecp := x <- fp_mul r (ex P) k ;; Some (mkecp x (ey P) (ez P)).
(** pair.rs:615-646 g1mul with rom::USE_GLV *)
Definition g1mul (P : ecp) (e : list Z) : option ecp :=
  Q <- ecp_affine r P ;;
  k <- fp_new_big r cru ;;
  u <- glv e ;;
  Q <- ecp_mulx Q k ;;
  a <- shorter (fst u) ;;
  R <- neg_if (fst a) P ;;
  b <- shorter (snd u) ;;
  Q <- neg_if (fst b) Q ;;
  u0 <- norm c (snd a) ;; u1 <- norm c (snd b) ;;
  ecp_mul2 r R u0 Q u1.
(** bls381/core.rs:106-110 *)
Definition subgroup_check_g1 (P : ecp) : option bool := C <- g1mul P (r_ORDER r) ;; ecp_is_infinity r C.
End G1Mul.
(** roms/rom_bls381_64.rs:100-100 CURVE_BNX *)
Definition bnx_bls381_64 : list Z := [0x201000000010000; 0x34; 0x0; 0x0; 0x0; 0x0; 0x0].
(** roms/rom_bls381_64.rs:102-110 CURVE_CRU *)
Definition cru_bls381_64 : list Z := [0x201FFFFFFFEFFFE; 0x1F604D88280008B; 0x293BE6F89688DE1; 0x1DA83DDFAB76CE; 0x3DF76CE51BA69C6; 0x17C659CB; 0x0].
(** roms/rom_bls381_32.rs:67-69 CURVE_BNX *)
Definition bnx_bls381_32 : list Z := [0x10000; 0x10080000; 0x34; 0x0; 0x0; 0x0; 0x0; 0x0; 0x0; 0x0; 0x0; 0x0; 0x0; 0x0].
(** roms/rom_bls381_32.rs:73-76 CURVE_CRU *)
Definition cru_bls381_32 : list Z := [0x1FFEFFFE; 0x100FFFFF; 0x280008B; 0xFB026C4; 0x9688DE1; 0x149DF37C; 0x1FAB76CE; 0xED41EE; 0x11BA69C6; 0x1EFBB672; 0x17C659CB; 0x0; 0x0; 0x0].
