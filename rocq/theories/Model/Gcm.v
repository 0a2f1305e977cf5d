(** Model of src/gcm.rs.  u8/u32/usize are integers in range; the fixed-size arrays are lists.  [None] = panic.
    Unsigned additions are overflow-checked in debug builds ([uadd]).
    Simplification: a caller's output slice is represented by its length; the bytes written to its front are returned
    (the rest of the slice is not touched by the code). *)
From Verif Require Import Base.Word Base.Arr Model.Aes.

(* src/gcm.rs:20-24 *)
Definition ACC_HEADER : nat := 0.
Definition ACC_CIPHER : nat := 1.
Definition NOT_MORE : nat := 2.
Definition FINISHED : nat := 3.

(* src/gcm.rs:29-38; lena = (lena[0], lena[1]) *)
Record gcm := mkgcm { g_table : list (list Z); g_statex : list Z; g_y0 : list Z; g_lena : Z * Z; g_lenc : Z * Z; g_status : nat; g_a : aes }.
(* src/gcm.rs:41-47 *)
Definition gpack (b : list Z) : Z :=
  Z.lor (Z.lor (Z.lor (shl32 (Z.land (at_ b 0) 255) 24) (shl32 (Z.land (at_ b 1) 255) 16)) (shl32 (Z.land (at_ b 2) 255) 8)) (Z.land (at_ b 3) 255).
(* src/gcm.rs:49-58 *)
Definition gunpack (a : Z) : list Z :=
  [Z.land (Z.shiftr a 24) 255; Z.land (Z.shiftr a 16) 255; Z.land (Z.shiftr a 8) 255; Z.land a 255].
(* src/gcm.rs:72-77: one row from the previous one; c is the carry *)
Fixpoint row_shift (c : Z) (r : list Z) : list Z * Z :=
  match r with
  | [] => ([], c)
  | w :: t => let (r', c') := row_shift (shl32 w 31) t in (Z.lor c (Z.shiftr w 1) :: r', c')
  end.
(* 71-81 *)
Definition next_row (r : list Z) : list Z :=
  let (r', c) := row_shift 0 r in
  if negb (c =? 0) then aset r' 0 (Z.lxor (at_ r' 0) 0xE1000000) else r'.
Fixpoint rows (n : nat) (r : list Z) : list (list Z) :=
  match n with O => [] | S m => r :: rows m (next_row r) end.
(* src/gcm.rs:60-82 *)
Definition precompute (h : list Z) : list (list Z) :=
  let r0 := map (fun i => gpack [at_ h (4 * i); at_ h (4 * i + 1); at_ h (4 * i + 2); at_ h (4 * i + 3)]) (seq 0 4) in
  rows 128 r0.
(* src/gcm.rs:94-99: c = !((statex[m] >> j) & 1) + 1, the mask for table row i (m = i/8, j = 7 - i mod 8) *)
Definition gmask (bd : build) (statex : list Z) (i : nat) : option Z :=
  let c := Z.land (Z.shiftr (at_ statex (i / 8)) (7 - Z.of_nat (i mod 8))) 1 in
  uadd bd 32 (2 ^ 32 - 1 - c) 1.
(* 93-110: the loop over the 128 bits *)
Fixpoint gf_loop (bd : build) (statex : list Z) (i : nat) (table : list (list Z)) (p : list Z) : option (list Z) :=
  match table with
  | [] => Some p
  | row :: t => c <- gmask bd statex i ;; gf_loop bd statex (S i) t (xorl p (map (fun w => Z.land w c) row))
  end.
(* src/gcm.rs:84-120 *)
Definition gf2mul (bd : build) (table : list (list Z)) (statex : list Z) : option (list Z) :=
  p <- gf_loop bd statex 0 table (repeat 0 4) ;;
  Some (gunpack (at_ p 0) ++ gunpack (at_ p 1) ++ gunpack (at_ p 2) ++ gunpack (at_ p 3)).
(* src/gcm.rs:127-141: the length block *)
Definition len_block (lena lenc : Z * Z) : list Z :=
  let hi l := Z.lor (shl32 (fst l) 3) (Z.shiftr (Z.land (snd l) 0xE0000000) 29) in
  let lo l := shl32 (snd l) 3 in
  gunpack (hi lena) ++ gunpack (lo lena) ++ gunpack (hi lenc) ++ gunpack (lo lenc).
(* src/gcm.rs:122-146 *)
Definition gwrap (bd : build) (g : gcm) : option gcm :=
  st <- gf2mul bd (g_table g) (xorl (g_statex g) (len_block (g_lena g) (g_lenc g))) ;;
  Some (mkgcm (g_table g) st (g_y0 g) (g_lena g) (g_lenc g) (g_status g) (g_a g)).
(* the counter update after each byte: l[1] += 1; if l[1]==0 { l[0] += 1 } *)
Definition len_inc (bd : build) (l : Z * Z) : option (Z * Z) :=
  lo <- uadd bd 32 (snd l) 1 ;;
  if lo =? 0 then (hi <- uadd bd 32 (fst l) 1 ;; Some (hi, lo)) else Some (fst l, lo).
Fixpoint len_add (bd : build) (n : nat) (l : Z * Z) : option (Z * Z) :=
  match n with O => Some l | S m => l' <- len_inc bd l ;; len_add bd m l' end.
(* for i in 0..16 { if j >= len {break}; statex[i] ^= data[j] } on the next (at most 16) bytes *)
Definition absorb_block (st blk : list Z) : list Z := xorl (firstn (length blk) st) blk ++ skipn (length blk) st.
(* the while loops of ghash (159-173) and add_header (261-275) on the bytes to be hashed; fuel = number of bytes *)
Fixpoint hash_loop (bd : build) (fuel : nat) (table : list (list Z)) (data : list Z) (st : list Z) (l : Z * Z) : option (list Z * (Z * Z)) :=
  match fuel with
  | O => Some (st, l)
  | S f => match data with
           | [] => Some (st, l)
           | _ => let blk := firstn 16 data in
                  l <- len_add bd (length blk) l ;;
                  st <- gf2mul bd table (absorb_block st blk) ;;
                  hash_loop bd f table (skipn 16 data) st l
           end
  end.
(* slice access data[0..len]: panics when the slice is shorter *)
Definition take_slice (data : list Z) (len : nat) : option (list Z) := if (len <=? length data)%nat then Some (firstn len data) else None.
(* src/gcm.rs:148-180 *)
Definition ghash (bd : build) (g : gcm) (plain : list Z) (len : nat) : option (bool * gcm) :=
  let status := if Nat.eqb (g_status g) ACC_HEADER then ACC_CIPHER else g_status g in
  if negb (Nat.eqb status ACC_CIPHER) then Some (false, mkgcm (g_table g) (g_statex g) (g_y0 g) (g_lena g) (g_lenc g) status (g_a g)) else
  data <- take_slice plain len ;;
  r <- hash_loop bd len (g_table g) data (g_statex g) (g_lenc g) ;;
  let status := if Nat.eqb (len mod 16) 0 then status else NOT_MORE in
  Some (true, mkgcm (g_table g) (fst r) (g_y0 g) (g_lena g) (snd r) status (g_a g)).
(* src/gcm.rs:183-229 *)
Definition gcm_init (bd : build) (g : gcm) (nk : nat) (key : list Z) (niv : nat) (iv : list Z) : option gcm :=
  r <- aes_init aes_new ECB nk key None ;;            (* 195: the boolean result is dropped *)
  let a := snd r in
  let h := ecb_encrypt a (repeat 0 16) in
  let table := precompute h in
  if Nat.eqb niv 12 then
    ivb <- take_slice iv 12 ;;
    let f := ivb ++ gunpack 1 in
    Some (mkgcm table (repeat 0 16) f (0, 0) (0, 0) ACC_HEADER (set_f a f))
  else
    let g := mkgcm table (repeat 0 16) (g_y0 g) (0, 0) (0, 0) ACC_CIPHER a in
    r <- ghash bd g iv niv ;;
    g <- gwrap bd (snd r) ;;
    let f := g_statex g in
    Some (mkgcm table (repeat 0 16) f (0, 0) (0, 0) ACC_HEADER (set_f a f)).
(* src/gcm.rs:231-242 *)
Definition gcm_new : gcm := mkgcm (repeat (repeat 0 4) 128) (repeat 0 16) (repeat 0 16) (0, 0) (0, 0) 0 aes_new.
(* src/gcm.rs:245-273 *)
Definition add_header (bd : build) (g : gcm) (header : list Z) (len : nat) : option (bool * gcm) :=
  if negb (Nat.eqb (g_status g) ACC_HEADER) then Some (false, g) else
  data <- take_slice header len ;;
  r <- hash_loop bd len (g_table g) data (g_statex g) (g_lena g) ;;
  let status := if Nat.eqb (len mod 16) 0 then g_status g else ACC_CIPHER in
  Some (true, mkgcm (g_table g) (fst r) (g_y0 g) (snd r) (g_lenc g) status (g_a g)).
(* src/gcm.rs:289-300: counter += 1 on the last word of f *)
Definition inc_ctr (bd : build) (f : list Z) : option (list Z) :=
  c <- uadd bd 32 (gpack [at_ f 12; at_ f 13; at_ f 14; at_ f 15]) 1 ;;
  Some (firstn 12 f ++ gunpack c).
(* src/gcm.rs:288-321 and 344-378: [enc] tells which side of the xor is hashed (the ciphertext) *)
Fixpoint crypt_loop (bd : build) (enc : bool) (fuel : nat) (table : list (list Z)) (a : aes) (inp : list Z) (st : list Z) (l : Z * Z)
  : option (list Z * list Z * (Z * Z) * aes) :=
  match fuel with
  | O => Some ([], st, l, a)
  | S f => match inp with
           | [] => Some ([], st, l, a)
           | _ => f' <- inc_ctr bd (a_f a) ;;
                  let a := set_f a f' in
                  let cb := ecb_encrypt a f' in
                  let blk := firstn 16 inp in
                  let out := xorl blk cb in
                  l <- len_add bd (length blk) l ;;
                  st <- gf2mul bd table (absorb_block st (if enc then out else blk)) ;;
                  r <- crypt_loop bd enc f table a (skipn 16 inp) st l ;;
                  let '(o, st, l, a) := r in Some (out ++ o, st, l, a)
           end
  end.
(* src/gcm.rs:276-326 (add_plain) and 329-383 (add_cipher); outlen is the length of the output slice *)
Definition add_data (bd : build) (enc : bool) (g : gcm) (outlen : nat) (inp : list Z) (len : nat) : option (bool * list Z * gcm) :=
  let status := if Nat.eqb (g_status g) ACC_HEADER then ACC_CIPHER else g_status g in
  if negb (Nat.eqb status ACC_CIPHER) then Some (false, [], mkgcm (g_table g) (g_statex g) (g_y0 g) (g_lena g) (g_lenc g) status (g_a g)) else
  data <- take_slice inp len ;;
  if (outlen <? len)%nat then None else
  r <- crypt_loop bd enc len (g_table g) (g_a g) data (g_statex g) (g_lenc g) ;;
  let '(o, st, l, a) := r in
  let status := if Nat.eqb (len mod 16) 0 then status else NOT_MORE in
  Some (true, o, mkgcm (g_table g) st (g_y0 g) (g_lena g) l status a).
Definition add_plain (bd : build) := add_data bd true.
Definition add_cipher (bd : build) := add_data bd false.
(* src/gcm.rs:386-406 *)
Definition gcm_finish (bd : build) (g : gcm) (extract : bool) : option (list Z * gcm) :=
  g <- gwrap bd g ;;
  if extract then
    let tag := xorl (ecb_encrypt (g_a g) (g_y0 g)) (g_statex g) in
    Some (tag, mkgcm (g_table g) (repeat 0 16) (repeat 0 16) (g_lena g) (g_lenc g) FINISHED (aes_end (g_a g)))
  else Some (repeat 0 16, mkgcm (g_table g) (g_statex g) (g_y0 g) (g_lena g) (g_lenc g) FINISHED (aes_end (g_a g))).
(* src/gcm.rs:408-437 *)
Definition hexdig (c : Z) : option Z :=
  if (48 <=? c) && (c <=? 57) then Some (c - 48) else if (65 <=? c) && (c <=? 70) then Some (c - 65 + 10)
  else if (97 <=? c) && (c <=? 102) then Some (c - 97 + 10) else None.
Fixpoint hex2bytes (hex : list Z) : list Z :=
  match hex with
  | c1 :: c2 :: t => (let v := match hexdig c1 with Some v => v | None => 0 end in
                      match hexdig c2 with Some d => 16 * v + d | None => 0 end) :: hex2bytes t
  | _ => []
  end.
