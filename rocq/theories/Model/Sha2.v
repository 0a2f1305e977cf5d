(** Model of src/hash256.rs, src/hash384.rs and src/hash512.rs.  The three files have the same text up to word size,
    number of rounds, constants and digest length, which are the fields of [sha] here; the line numbers cited are those of
    hash256.rs / hash512.rs (hash384.rs is within one line of hash512.rs).  Words are integers in range; arrays are lists. *)
From Verif Require Import Base.Word Base.Arr Model.Sha2Tables.

Record sha := mksha { sW : Z;                  (* bits of a word (u32 / u64) *)
  sR : nat;                                    (* rounds = length of w *)
  sK : list Z; sH : list Z;                    (* constants *)
  sOut : nat;                                  (* digest bytes *)
  sS0 : Z * Z * Z; sS1 : Z * Z * Z;            (* rotation amounts of sig0, sig1 *)
  sT0 : Z * Z * Z; sT1 : Z * Z * Z }.          (* rotation, rotation, shift of theta0, theta1 *)
Definition sha256 : sha := mksha 32 64 HASH256_K HASH256_H 32 (2, 13, 22) (6, 11, 25) (7, 18, 3) (17, 19, 10).   (* hash256.rs:66-86 *)
Definition sha384 : sha := mksha 64 80 HASH384_K HASH384_H 48 (28, 34, 39) (14, 18, 41) (1, 8, 7) (19, 61, 6).   (* hash384.rs:142-156 *)
Definition sha512 : sha := mksha 64 80 HASH512_K HASH512_H 64 (28, 34, 39) (14, 18, 41) (1, 8, 7) (19, 61, 6).   (* hash512.rs:142-156 *)

Section Sha.
Variable C : sha.
Let W := sW C.
Definition wadd (x y : Z) : Z := wrapu W (x + y).                        (* wrapping_add *)
(* hash256.rs:58-60 / hash512.rs:128-130 *)
Definition rotw (n x : Z) : Z := Z.lor (Z.shiftr x n) (wrapu W (Z.shiftl x (W - n))).
(* 61-63 / 131-133 *)
Definition shrw (n x : Z) : Z := Z.shiftr x n.
(* 65-67 / 135-137; !x on an unsigned word *)
Definition chw (x y z : Z) : Z := Z.lxor (Z.land x y) (Z.land (2 ^ W - 1 - x) z).
(* 69-71 / 139-141 *)
Definition majw (x y z : Z) : Z := Z.lxor (Z.lxor (Z.land x y) (Z.land x z)) (Z.land y z).
(* 72-86 / 143-157 *)
Definition rrr (p : Z * Z * Z) (x : Z) : Z := let '(a, b, c) := p in Z.lxor (Z.lxor (rotw a x) (rotw b x)) (rotw c x).
Definition rrs (p : Z * Z * Z) (x : Z) : Z := let '(a, b, c) := p in Z.lxor (Z.lxor (rotw a x) (rotw b x)) (shrw c x).

Record hst := mkhst { h_len0 : Z; h_len1 : Z; h_h : list Z; h_w : list Z }.
(* 90-95 / 161-166 *)
Definition expand_step (w : list Z) (j : nat) : list Z :=
  aset w j (wadd (wadd (wadd (rrs (sT1 C) (at_ w (j - 2))) (at_ w (j - 7))) (rrs (sT0 C) (at_ w (j - 15)))) (at_ w (j - 16))).
Definition expand (w : list Z) : list Z := fold_left expand_step (seq 16 (sR C - 16)) w.
(* 104-123 / 175-193 *)
Definition vars := (Z * Z * Z * Z * Z * Z * Z * Z)%type.
Definition round_step (w : list Z) (v : vars) (j : nat) : vars :=
  let '(a, b, c, d, e, f, g, hh) := v in
  let t1 := wadd (wadd (wadd (wadd hh (rrr (sS1 C) e)) (chw e f g)) (at_ (sK C) j)) (at_ w j) in
  let t2 := wadd (rrr (sS0 C) a) (majw a b c) in
  (wadd t1 t2, a, b, c, wadd d t1, e, f, g).
(* 88-131 / 159-201 *)
Definition transform (s : hst) : hst :=
  let w := expand (h_w s) in
  let h := h_h s in
  let '(a, b, c, d, e, f, g, hh) := fold_left (round_step w) (seq 0 (sR C))
     (at_ h 0, at_ h 1, at_ h 2, at_ h 3, at_ h 4, at_ h 5, at_ h 6, at_ h 7) in
  mkhst (h_len0 s) (h_len1 s)
    [wadd (at_ h 0) a; wadd (at_ h 1) b; wadd (at_ h 2) c; wadd (at_ h 3) d; wadd (at_ h 4) e; wadd (at_ h 5) f; wadd (at_ h 6) g; wadd (at_ h 7) hh] w.
(* 134-150 / 203-218: clears w[0..64] only *)
Definition h_init (s : hst) : hst := mkhst 0 0 (sH C) (repeat 0 64 ++ skipn 64 (h_w s)).
(* 152-160 / 220-228 *)
Definition h_new : hst := h_init (mkhst 0 0 (repeat 0 8) (repeat 0 (sR C))).
(* 163-177 / 231-245 *)
Definition process (bd : build) (s : hst) (byt : Z) : option hst :=
  let cnt := Z.to_nat ((h_len0 s / W) mod 16) in
  let w := aset (h_w s) cnt (Z.lor (wrapu W (Z.shiftl (at_ (h_w s) cnt) 8)) (Z.land byt 255)) in
  l0 <- uadd bd W (h_len0 s) 8 ;;
  l1 <- (if l0 =? 0 then uadd bd W (h_len1 s) 1 else Some (h_len1 s)) ;;
  let s := mkhst l0 l1 (h_h s) w in
  Some (if l0 mod (16 * W) =? 0 then transform s else s).
(* 180-184 / 248-252 *)
Fixpoint process_array (bd : build) (s : hst) (b : list Z) : option hst :=
  match b with [] => Some s | x :: t => s <- process bd s x ;; process_array bd s t end.
(* 187-192 / 255-260; n : i32 *)
Definition process_num (bd : build) (s : hst) (n : Z) : option hst :=
  s <- process bd s (Z.land (Z.shiftr n 24) 255) ;; s <- process bd s (Z.land (Z.shiftr n 16) 255) ;;
  s <- process bd s (Z.land (Z.shiftr n 8) 255) ;; process bd s (Z.land n 255).
(* 201-203 / 269-271: while length % (16 W) != 14 W { process(0) }; a block's worth of turns is enough *)
Fixpoint pad_loop (bd : build) (fuel : nat) (s : hst) : option hst :=
  match fuel with
  | O => Some s
  | S f => if h_len0 s mod (16 * W) =? 14 * W then Some s else (s <- process bd s 0 ;; pad_loop bd f s)
  end.
(* 208-211 / 275-278 *)
Definition digest_of (h : list Z) : list Z :=
  let n := Z.to_nat (W / 8) in
  map (fun i => Z.land (Z.shiftr (at_ h (i / n)) (8 * (Z.of_nat (n - 1) - Z.of_nat (i mod n)))) 255) (seq 0 (sOut C)).
(* 195-214 / 263-281 *)
Definition hash (bd : build) (s : hst) : option (list Z * hst) :=
  let len0 := h_len0 s in let len1 := h_len1 s in
  s <- process bd s 0x80 ;;
  s <- pad_loop bd (Z.to_nat (2 * W)) s ;;
  let s := transform (mkhst (h_len0 s) (h_len1 s) (h_h s) (aset (aset (h_w s) 14 len1) 15 len0)) in
  Some (digest_of (h_h s), h_init s).

(* 219-257 / 286-324; BLOCK_SIZE = 2 W bytes.  new() calls init(), which is then called again *)
Definition hash_of (bd : build) (data : list Z) : option (list Z) :=
  s <- process_array bd (h_init h_new) data ;; r <- hash bd s ;; Some (fst r).
Definition BLOCK : nat := Z.to_nat (2 * W).
(* inner[i] ^= k[i] over a buffer of BLOCK_SIZE equal bytes; the index is in range because |k| <= BLOCK_SIZE *)
Definition xor_pad (c : Z) (k : list Z) : list Z := xorl (repeat c BLOCK) k ++ skipn (length k) (repeat c BLOCK).
Definition hmac (bd : build) (key text : list Z) : option (list Z) :=
  k <- (if (BLOCK <? length key)%nat then hash_of bd key else Some key) ;;
  inner <- hash_of bd (xor_pad 0x36 k ++ text) ;;
  hash_of bd (xor_pad 0x5c k ++ inner).
(* 262-264 / 329-331 *)
Definition hkdf_extract (bd : build) (salt ikm : list Z) : option (list Z) := hmac bd salt ikm.
(* 269-297 / 336-364; l : u8 *)
Fixpoint hkdf_loop (bd : build) (n i : nat) (prk info previous : list Z) : option (list Z) :=
  match n with
  | O => Some []
  | S m => t <- hmac bd prk (previous ++ info ++ [Z.of_nat (i + 1)]) ;; r <- hkdf_loop bd m (i + 1) prk info t ;; Some (t ++ r)
  end.
Definition resize (l : list Z) (n : nat) : list Z := firstn n l ++ repeat 0 (n - length l).
Definition hkdf_extend (bd : build) (prk info : list Z) (l : Z) : option (list Z) :=
  let o := Z.of_nat (sOut C) in
  let n := l / o in
  no <- chku 8 (n * o) ;;
  n <- (if no <? l then uadd bd 8 n 1 else Some n) ;;
  okm <- hkdf_loop bd (Z.to_nat n) 0 prk info [] ;;
  Some (resize okm (Z.to_nat l)).
End Sha.
