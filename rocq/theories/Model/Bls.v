(** Model of src/bls381/core.rs: secret keys and the G1 encodings.  [Result] is [result], [None] is a panic. *)
From Verif Require Import Base.Word Base.Arr Model.Big Model.Roms Model.Sha2 Model.Fp Model.Fp2 Model.Ecp Model.HashToCurve.

(** core.rs:36 KEY_SALT = b"BLS-SIG-KEYGEN-SALT-"; core.rs:38 KEY_GENERATION_L *)
Definition KEY_SALT : list Z := [66; 76; 83; 45; 83; 73; 71; 45; 75; 69; 89; 71; 69; 78; 45; 83; 65; 76; 84; 45].
Definition KEY_GENERATION_L : Z := 48.
(** core.rs:42 *)
Definition SECRET_KEY_BYTES : nat := 32.
(** core.rs:49-51 *)
Definition COMPRESION_FLAG : Z := 128.
Definition INFINITY_FLAG : Z := 64.
Definition Y_FLAG : Z := 32.

Section Bls.
Variable r : rom.
Variable bd : build.
Notation c := (r_cfg r).
(** core.rs:44, 46; MODBYTES *)
Definition mb : nat := Z.to_nat (MODBYTES c).

(** core.rs:101-107 secret_key_to_bytes *)
Definition secret_key_to_bytes (sk : list Z) : option (list Z) :=
  b <- tobytes c sk (repeat 0 mb) ;; Some (skipn (mb - SECRET_KEY_BYTES) b).
(** core.rs:80-98 secret_key_from_bytes *)
Definition secret_key_from_bytes (sk : list Z) : option (result (list Z)) :=
  if negb (length sk =? SECRET_KEY_BYTES)%nat then Some (Err InvalidSecretKeySize) else
  w <- frombytes c (repeat 0 (mb - SECRET_KEY_BYTES) ++ sk) ;;
  if 0 <=? comp w (r_ORDER r) then Some (Err InvalidSecretKeyRange) else Some (Ok w).
(** core.rs:57-77 key_generate *)
Definition key_generate (ikm key_info : list Z) : option (list Z) :=
  prk <- hkdf_extract sha256 bd KEY_SALT (ikm ++ [0]) ;;
  okm <- hkdf_extend sha256 bd prk (key_info ++ [0; KEY_GENERATION_L]) KEY_GENERATION_L ;;
  w <- frombytes c okm ;;
  sk <- rmod c w (r_ORDER r) ;;
  secret_key_to_bytes sk.

(** result[0] += v on a u8 array *)
Definition add0 (b : list Z) (v : Z) : option (list Z) :=
  match b with
  | x :: t => y <- uadd bd 8 x v ;; Some (y :: t)
  | [] => None
  end.

(** core.rs:135-161 serialize_g1 *)
Definition serialize_g1 (P : ecp) : option (list Z) :=
  i <- ecp_is_infinity r P ;;
  if (i : bool) then Some ((64 + 128) :: repeat 0 (mb - 1)) else
  x <- ecp_getx r P ;;
  res <- tobytes c x (repeat 0 mb) ;;
  tmp <- ecp_affine r P ;;
  y <- ecp_gety r tmp ;;
  tmp <- ecp_neg r tmp ;;
  y_neg <- ecp_gety r tmp ;;
  res <- (if 0 <? comp y y_neg then add0 res Y_FLAG else Some res) ;;
  add0 res COMPRESION_FLAG.

(** core.rs:166-179 serialize_uncompressed_g1 *)
Definition serialize_uncompressed_g1 (P : ecp) : option (list Z) :=
  i <- ecp_is_infinity r P ;;
  if (i : bool) then Some (INFINITY_FLAG :: repeat 0 (2 * mb - 1)) else
  x <- ecp_getx r P ;; bx <- tobytes c x (repeat 0 mb) ;;
  y <- ecp_gety r P ;; by_ <- tobytes c y (repeat 0 mb) ;;
  Some (bx ++ by_).

(** the check "trailing bits should all be 0" (core.rs:205-219 and 263-277): flags byte & 0x3f and every later byte *)
Definition trailing_zero (b : list Z) : bool :=
  match b with
  | h :: t => (Z.land h 63 =? 0) && forallb (fun x => x =? 0) t
  | [] => true
  end.
(** core.rs:198-245 deserialize_compressed_g1 *)
Definition deserialize_compressed_g1 (b : list Z) : option (result ecp) :=
  if negb (length b =? mb)%nat then Some (Err InvalidG1Size) else
  match b with
  | [] => None
  | h :: t =>
      if negb (Z.land h INFINITY_FLAG =? 0) then
        if trailing_zero b then P <- ecp_new r ;; Some (Ok P) else Some (Err InvalidPoint)
      else
      let y_flag := 0 <? Z.land h Y_FLAG in
      x <- frombytes c (Z.land h 31 :: t) ;;
      if 0 <=? comp x (r_MODULUS r) then Some (Err InvalidPoint) else
      P <- ecp_new_big r x ;;
      i <- ecp_is_infinity r P ;;
      if (i : bool) then Some (Err InvalidPoint) else
      N <- ecp_neg r P ;;
      y <- ecp_gety r P ;;
      yn <- ecp_gety r N ;;
      Some (Ok (if Bool.eqb (0 <? comp y yn) y_flag then P else N))
  end.
(** core.rs:248-300 deserialize_uncompressed_g1 *)
Definition deserialize_uncompressed_g1 (b : list Z) : option (result ecp) :=
  if negb (length b =? 2 * mb)%nat then Some (Err InvalidG1Size) else
  match b with
  | [] => None
  | h :: t =>
      if negb (Z.land h INFINITY_FLAG =? 0) then
        if trailing_zero b then P <- ecp_new r ;; Some (Ok P) else Some (Err InvalidPoint)
      else
      if 0 <? Z.land h Y_FLAG then Some (Err InvalidYFlag) else
      let b' := Z.land h 31 :: t in
      x <- frombytes c (firstn mb b') ;;
      y <- frombytes c (skipn mb b') ;;
      if (0 <=? comp x (r_MODULUS r)) || (0 <=? comp y (r_MODULUS r)) then Some (Err InvalidPoint) else
      P <- ecp_new_bigs r x y ;;
      i <- ecp_is_infinity r P ;;
      if (i : bool) then Some (Err InvalidPoint) else Some (Ok P)
  end.
(** core.rs:184-195 deserialize_g1 *)
Definition deserialize_g1 (b : list Z) : option (result ecp) :=
  match b with
  | [] => Some (Err InvalidG1Size)
  | h :: _ => if Z.land h COMPRESION_FLAG =? 0 then deserialize_uncompressed_g1 b else deserialize_compressed_g1 b
  end.
End Bls.
