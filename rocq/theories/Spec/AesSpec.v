(** FIPS-197, stated independently of the code: bytes are integers 0..255, the state is the list of its 16 bytes in
    input order (byte r of column c at position r + 4c), words are lists of four bytes. *)
From Verif Require Import Base.Word Base.Arr.

(** ** GF(2^8), FIPS-197 section 4.2 *)
Definition xtime (a : Z) : Z := if a <? 128 then 2 * a else Z.lxor (2 * a - 256) 27.
Fixpoint gmul_bits (n : nat) (a b : Z) : Z :=
  match n with O => 0 | S m => Z.lxor (if Z.odd b then a else 0) (gmul_bits m (xtime a) (b / 2)) end.
Definition gmul (k a : Z) : Z := gmul_bits 8 a k.                       (* {k} . {a} *)
Fixpoint gpow (a : Z) (n : nat) : Z := match n with O => 1 | S m => gmul a (gpow a m) end.
Fixpoint gexp (a : Z) (e : positive) : Z :=
  match e with xH => a | xO q => let y := gexp a q in gmul y y | xI q => let y := gexp a q in gmul a (gmul y y) end.
Definition ginv (a : Z) : Z := gexp a 254.                             (* multiplicative inverse; 0 -> 0 *)
Example ginv_ok : forallb (fun a => (a =? 0) || (gmul a (ginv a) =? 1)) byte_list && (ginv 0 =? 0) = true.
Proof. vm_compute. reflexivity. Qed.

(** ** S-box, section 5.1.1 *)
Definition rot8 (a : Z) (i : Z) : Z := (a * 2 ^ i) mod 256 + a / 2 ^ (8 - i).
Definition sbox (a : Z) : Z :=
  let b := ginv a in Z.lxor b (Z.lxor (rot8 b 1) (Z.lxor (rot8 b 2) (Z.lxor (rot8 b 3) (Z.lxor (rot8 b 4) 99)))).
(** section 5.3.2: the inverse of the affine map, then the field inverse *)
Definition inv_sbox (y : Z) : Z := ginv (Z.lxor (rot8 y 1) (Z.lxor (rot8 y 3) (Z.lxor (rot8 y 6) 5))).
Example inv_sbox_ok : forallb (fun x => (inv_sbox (sbox x) =? x) && (sbox (inv_sbox x) =? x)) byte_list = true.
Proof. vm_compute. reflexivity. Qed.

(** ** the four transformations and their inverses *)
Definition add_round_key (s k : list Z) : list Z := xorl s k.
Definition sub_bytes (s : list Z) : list Z := map sbox s.
Definition inv_sub_bytes (s : list Z) : list Z := map inv_sbox s.
(** row r is rotated left by r *)
Definition shift_rows (s : list Z) : list Z :=
  map (fun i => let r := (i mod 4)%nat in let c := (i / 4)%nat in at_ s (r + 4 * ((c + r) mod 4))) (seq 0 16).
Definition inv_shift_rows (s : list Z) : list Z :=
  map (fun i => let r := (i mod 4)%nat in let c := (i / 4)%nat in at_ s (r + 4 * ((c + 4 - r) mod 4))) (seq 0 16).
(** circulant matrices (02 03 01 01) and (0e 0b 0d 09) *)
Definition mix_with (k0 k1 k2 k3 : Z) (s : list Z) : list Z :=
  map (fun i => let r := (i mod 4)%nat in let c := (i / 4)%nat in
    let a j := at_ s ((r + j) mod 4 + 4 * c) in
    Z.lxor (gmul k0 (a 0%nat)) (Z.lxor (gmul k1 (a 1%nat)) (Z.lxor (gmul k2 (a 2%nat)) (gmul k3 (a 3%nat))))) (seq 0 16).
Definition mix_columns := mix_with 2 3 1 1.
Definition inv_mix_columns := mix_with 14 11 13 9.

(** ** key expansion, section 5.2 *)
Definition rot_word (w : list Z) : list Z := [at_ w 1; at_ w 2; at_ w 3; at_ w 0].
Definition sub_word (w : list Z) : list Z := map sbox w.
Definition rcon (i : nat) : list Z := [gpow 2 (i - 1); 0; 0; 0].
Definition next_word (nk : nat) (key : list Z) (ws : list (list Z)) : list Z :=
  let i := length ws in
  if (i <? nk)%nat then firstn 4 (skipn (4 * i) key)
  else
    let temp := last ws [] in
    let temp' := if (i mod nk =? 0)%nat then xorl (sub_word (rot_word temp)) (rcon (i / nk))
                 else if (6 <? nk)%nat && (i mod nk =? 4)%nat then sub_word temp else temp in
    xorl (nth (i - nk) ws []) temp'.
Fixpoint key_words (nk : nat) (key : list Z) (m : nat) : list (list Z) :=
  match m with O => [] | S m' => let ws := key_words nk key m' in ws ++ [next_word nk key ws] end.
Definition round_key (ws : list (list Z)) (r : nat) : list Z :=
  nth (4 * r) ws [] ++ nth (4 * r + 1) ws [] ++ nth (4 * r + 2) ws [] ++ nth (4 * r + 3) ws [].

(** ** cipher (section 5.1) and inverse cipher (section 5.3) *)
Definition cipher (nr : nat) (ws : list (list Z)) (inp : list Z) : list Z :=
  let s := add_round_key inp (round_key ws 0) in
  let s := fold_left (fun s r => add_round_key (mix_columns (shift_rows (sub_bytes s))) (round_key ws r)) (seq 1 (nr - 1)) s in
  add_round_key (shift_rows (sub_bytes s)) (round_key ws nr).
Definition inv_cipher (nr : nat) (ws : list (list Z)) (inp : list Z) : list Z :=
  let s := add_round_key inp (round_key ws nr) in
  let s := fold_left (fun s r => inv_mix_columns (add_round_key (inv_sub_bytes (inv_shift_rows s)) (round_key ws r))) (rev (seq 1 (nr - 1))) s in
  add_round_key (inv_sub_bytes (inv_shift_rows s)) (round_key ws 0).

(** keys of 16, 24 or 32 bytes *)
Definition aes_schedule (key : list Z) : list (list Z) := let nk := (length key / 4)%nat in key_words nk key (4 * (nk + 7)).
Definition aes_enc (key inp : list Z) : list Z := cipher (length key / 4 + 6) (aes_schedule key) inp.
Definition aes_dec (key inp : list Z) : list Z := inv_cipher (length key / 4 + 6) (aes_schedule key) inp.

(** FIPS-197 appendix C.1 *)
Example fips197_c1 : aes_enc (map Z.of_nat (seq 0 16)) [0; 17; 34; 51; 68; 85; 102; 119; 136; 153; 170; 187; 204; 221; 238; 255]
  = [105; 196; 224; 216; 106; 123; 4; 48; 216; 205; 183; 128; 112; 180; 197; 90].
Proof. vm_compute. reflexivity. Qed.

(** ** modes of operation (SP 800-38A) over a block cipher E with inverse D *)
Section Modes.
Variable E D : list Z -> list Z.
Fixpoint cbc_enc (iv : list Z) (ps : list (list Z)) : list (list Z) :=
  match ps with [] => [] | p :: t => let c := E (xorl p iv) in c :: cbc_enc c t end.
Fixpoint cbc_dec (iv : list Z) (cs : list (list Z)) : list (list Z) :=
  match cs with [] => [] | c :: t => xorl (D c) iv :: cbc_dec c t end.
(** s-byte CFB: each segment has s bytes *)
Fixpoint cfb_enc (s : nat) (iv : list Z) (ps : list (list Z)) : list (list Z) :=
  match ps with [] => [] | p :: t => let c := xorl p (firstn s (E iv)) in c :: cfb_enc s (skipn s iv ++ c) t end.
Fixpoint cfb_dec (s : nat) (iv : list Z) (cs : list (list Z)) : list (list Z) :=
  match cs with [] => [] | c :: t => xorl c (firstn s (E iv)) :: cfb_dec s (skipn s iv ++ c) t end.
(** OFB; segments shorter than a block use the first s bytes of each output block *)
Fixpoint ofb (s : nat) (iv : list Z) (ps : list (list Z)) : list (list Z) :=
  match ps with [] => [] | p :: t => let o := E iv in xorl p (firstn s o) :: ofb s o t end.
(** CTR with counter blocks f iv, f (f iv), .. *)
Fixpoint ctr (next : list Z -> list Z) (s : nat) (cb : list Z) (ps : list (list Z)) : list (list Z) :=
  match ps with [] => [] | p :: t => xorl p (firstn s (E cb)) :: ctr next s (next cb) t end.
End Modes.
(** 128-bit little-endian increment modulo 2^128 *)
Fixpoint le_incr (l : list Z) : list Z :=
  match l with [] => [] | x :: t => if x =? 255 then 0 :: le_incr t else (x + 1) :: t end.
