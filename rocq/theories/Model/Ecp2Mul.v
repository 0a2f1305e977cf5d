(** Model of scalar multiplication in /repo/src/ecp2.rs.  [tw] is ecp::SEXTIC_TWIST, [bi] is rom::CURVE_B_I.  [None] is a panic.
    The scalar recoding is the one of ecp.rs, written again line by line in ecp2.rs:546-570, so its model in Model/Ecp.v is reused. *)
From Verif Require Export Base.Word Base.Arr Model.Big Model.Roms Model.Fp Model.Fp2 Model.Fp12 Model.Ecp Model.Ecp2.

Section Ecp2Mul.
Variable r : rom.
Variable tw : twist.
Variable bi : Z.
Notation c := (r_cfg r).
(** ecp2.rs:125-129 cmove *)
Definition ecp2_cmove (P Q : ecp2) (d : Z) : option ecp2 :=
  x <- fp2_cmove r (x2 P) (x2 Q) d ;; y <- fp2_cmove r (y2 P) (y2 Q) d ;; z <- fp2_cmove r (z2 P) (z2 Q) d ;; Some (mkecp2 x y z).
(** ecp2.rs:132-136 teq is the same code as ecp.rs:268-272 *)
(** ecp2.rs:139-157 selector; W has eight entries *)
Fixpoint sel_loop2 (P : ecp2) (W : list ecp2) (babs i : Z) : option ecp2 :=
  match W with
  | [] => Some P
  | w :: W' => Q <- ecp2_cmove P w (teq babs i) ;; sel_loop2 Q W' babs (i + 1)
  end.
Definition ecp2_selector (P : ecp2) (W : list ecp2) (b : Z) : option ecp2 :=
  let m := Z.shiftr b 31 in
  let babs := Z.quot (Z.lxor b m - m - 1) 2 in
  Q <- sel_loop2 P W babs 0 ;;
  MP <- ecp2_neg r Q ;;
  ecp2_cmove Q MP (Z.land m 1).
(** ecp2.rs:541-544: W[i] = W[i-1] + Q *)
Fixpoint win_table2 (n : nat) (W Q : ecp2) : option (list ecp2) :=
  match n with O => Some [] | S n' => W1 <- ecp2_add r tw bi W Q ;; rest <- win_table2 n' W1 Q ;; Some (W1 :: rest) end.
Fixpoint dbln2 (n : nat) (P : ecp2) : option ecp2 := match n with O => Some P | S n' => P1 <- ecp2_dbl r tw bi P ;; dbln2 n' P1 end.
(** ecp2.rs:573-580: digits most significant first; Q is the scratch point *)
Fixpoint win_loop2 (k : nat) (W : list ecp2) (ds : list Z) (P Q : ecp2) : option ecp2 :=
  match ds with
  | [] => Some P
  | d :: ds' =>
      Q <- ecp2_selector Q W d ;;
      P <- dbln2 k P ;;
      P <- ecp2_add r tw bi P Q ;;
      win_loop2 k W ds' P Q
  end.
(** ecp2.rs:516-584 mul *)
Definition ecp2_mul (P : ecp2) (e : list Z) : option ecp2 :=
  i <- ecp2_is_infinity r P ;;
  if (i : bool) then ecp2_new r else
  let ct := 1 + (Z.of_nat (NLEN c) * BASEBITS c + 3) / 4 in
  Q <- ecp2_dbl r tw bi P ;;
  W' <- win_table2 7 P Q ;;
  let W := P :: W' in
  tn <- make_odd r e ;;
  let '(t, ns) := tn in
  Q <- ecp2_cmove Q P ns ;;
  let C := Q in
  nbt <- nbits c t ;;
  let nb := 1 + (nbt + 3) / 4 in
  if nb <? ct then
    dt <- recode r (Z.to_nat nb) 4 t ;;
    lb <- lastbits c (snd dt) 5 ;;
    let top := wrap8 (fst lb) in
    if 0 <? top then
      P0 <- nth_error W (Z.to_nat ((top - 1) / 2)) ;;
      P1 <- win_loop2 4 W (rev (map wrap8 (fst dt))) P0 Q ;;
      P2 <- ecp2_sub r tw bi P1 C ;;
      ecp2_affine r P2
    else None
  else None.
End Ecp2Mul.
