(** FIPS 180-4 (SHA-256, SHA-384, SHA-512), RFC 2104 (HMAC), RFC 5869 (HKDF), stated independently of the code.
    Byte strings are lists of integers 0..255, words are integers 0..2^W-1. *)
From Verif Require Import Base.Word Base.Arr Spec.Bytes.

(** ** constants, sections 4.2.2, 4.2.3, 5.3: the first W bits of the fractional parts of roots of primes *)
Definition all_primes : list Z := [2; 3; 5; 7; 11; 13; 17; 19; 23; 29; 31; 37; 41; 43; 47; 53; 59; 61; 67; 71; 73; 79; 83; 89; 97; 101; 103; 107; 109; 113; 127; 131; 137; 139; 149; 151; 157; 163; 167; 173; 179; 181; 191; 193; 197; 199; 211; 223; 227; 229; 233; 239; 241; 251; 257; 263; 269; 271; 277; 281; 283; 293; 307; 311; 313; 317; 331; 337; 347; 349; 353; 359; 367; 373; 379; 383; 389; 397; 401; 409].
Definition primes (n : nat) : list Z := firstn n all_primes.
(** the largest x < 2^bits with x^n <= v *)
Fixpoint root_bits (k : nat) (n v acc : Z) : Z :=
  match k with O => acc | S m => let x := acc + 2 ^ Z.of_nat m in root_bits m n v (if x ^ n <=? v then x else acc) end.
Definition frac_root (n W p : Z) : Z := root_bits (Z.to_nat (W + 5)) n (p * 2 ^ (n * W)) 0 mod 2 ^ W.
Example frac_root_ex : frac_root 2 32 2 = 0x6a09e667 /\ frac_root 3 32 2 = 0x428a2f98.
Proof. vm_compute. auto. Qed.

Record sha_par := { W : Z; rounds : nat; outlen : nat; first_prime : nat;
  big0 : Z * Z * Z; big1 : Z * Z * Z; small0 : Z * Z * Z; small1 : Z * Z * Z }.
Definition SHA256 := {| W := 32; rounds := 64; outlen := 32; first_prime := 0;
  big0 := (2, 13, 22); big1 := (6, 11, 25); small0 := (7, 18, 3); small1 := (17, 19, 10) |}.
Definition SHA512 := {| W := 64; rounds := 80; outlen := 64; first_prime := 0;
  big0 := (28, 34, 39); big1 := (14, 18, 41); small0 := (1, 8, 7); small1 := (19, 61, 6) |}.
Definition SHA384 := {| W := 64; rounds := 80; outlen := 48; first_prime := 8;
  big0 := (28, 34, 39); big1 := (14, 18, 41); small0 := (1, 8, 7); small1 := (19, 61, 6) |}.

Section Sha2.
Variable P : sha_par.
Let w := W P.
Let M := 2 ^ w.
Definition K : list Z := map (frac_root 3 w) (primes (rounds P)).
Definition H0 : list Z := map (frac_root 2 w) (skipn (first_prime P) (primes (first_prime P + 8))).

(** section 3.2, 4.1 *)
Definition ROTR (n x : Z) : Z := x / 2 ^ n + (x mod 2 ^ n) * 2 ^ (w - n).
Definition SHR (n x : Z) : Z := x / 2 ^ n.
Definition Not (x : Z) : Z := M - 1 - x.
Definition Ch (x y z : Z) : Z := Z.lxor (Z.land x y) (Z.land (Not x) z).
Definition Maj (x y z : Z) : Z := Z.lxor (Z.lxor (Z.land x y) (Z.land x z)) (Z.land y z).
Definition Big (p : Z * Z * Z) (x : Z) : Z := let '(a, b, c) := p in Z.lxor (Z.lxor (ROTR a x) (ROTR b x)) (ROTR c x).
Definition Small (p : Z * Z * Z) (x : Z) : Z := let '(a, b, c) := p in Z.lxor (Z.lxor (ROTR a x) (ROTR b x)) (SHR c x).

(** section 5.1: padding.  The length field has 2W bits; a block has 16 words *)
Definition wbytes : nat := Z.to_nat (w / 8).
Definition zeros_needed (l : nat) : nat := Z.to_nat ((14 * (w / 8) - 1 - Z.of_nat l) mod (16 * (w / 8))).
Definition pad (m : list Z) : list Z :=
  m ++ [128] ++ repeat 0 (zeros_needed (length m)) ++ i2osp (8 * Z.of_nat (length m)) (2 * wbytes).
(** sections 5.2: words and blocks *)
Fixpoint cut (f n : nat) (l : list Z) : list (list Z) :=
  match f with O => [] | S f' => match l with [] => [] | _ => firstn n l :: cut f' n (skipn n l) end end.
Definition words_of (l : list Z) : list Z := map os2ip (cut (length l) wbytes l).
Definition blocks_of (l : list Z) : list (list Z) := map words_of (cut (length l) (16 * wbytes) l).

(** section 6.2.2 / 6.4.2 *)
Fixpoint schedule (n : nat) (blk : list Z) : list Z :=
  match n with
  | O => blk
  | S m => let ws := schedule m blk in let t := length ws in
           ws ++ [(Small (small1 P) (nth (t - 2) ws 0) + nth (t - 7) ws 0 + Small (small0 P) (nth (t - 15) ws 0) + nth (t - 16) ws 0) mod M]
  end.
Definition step (v : list Z) (kw : Z * Z) : list Z :=
  match v with
  | [a; b; c; d; e; f; g; h] =>
      let T1 := h + Big (big1 P) e + Ch e f g + fst kw + snd kw in
      let T2 := Big (big0 P) a + Maj a b c in
      [(T1 + T2) mod M; a; b; c; (d + T1) mod M; e; f; g]
  | _ => v
  end.
Definition add_words (a b : list Z) : list Z := map (fun p => (fst p + snd p) mod M) (combine a b).
Definition compress (h blk : list Z) : list Z :=
  add_words h (fold_left step (combine K (schedule (rounds P - 16) blk)) h).
Definition SHA2 (m : list Z) : list Z :=
  firstn (outlen P) (flat_map (fun x => i2osp x wbytes) (fold_left compress (blocks_of (pad m)) H0)).

(** RFC 2104 *)
Definition B : nat := 16 * wbytes.
Definition HMAC (key text : list Z) : list Z :=
  let k := if (length key <=? B)%nat then key else SHA2 key in
  let k0 := k ++ repeat 0 (B - length k) in
  SHA2 (map (Z.lxor 0x5c) k0 ++ SHA2 (map (Z.lxor 0x36) k0 ++ text)).
(** RFC 5869 *)
Definition HKDF_Extract (salt ikm : list Z) : list Z := HMAC salt ikm.
Fixpoint T (prk info : list Z) (i : nat) : list Z :=
  match i with O => [] | S j => HMAC prk (T prk info j ++ info ++ [Z.of_nat i]) end.
Definition HKDF_Expand (prk info : list Z) (L : nat) : list Z :=
  let N := Nat.div (L + outlen P - 1) (outlen P) in
  firstn L (flat_map (T prk info) (seq 1 N)).
End Sha2.

(** ** what a streaming hash object must answer: one operation per method call *)
Inductive hop := Byte (b : Z) | Bytes (l : list Z) | Num (n : Z) | Digest | Reset.
(** bytes since the last reset, after one more call; a digest resets too *)
Definition absorbed (cur : list Z) (o : hop) : list Z :=
  match o with Byte b => cur ++ [b] | Bytes l => cur ++ l | Num n => cur ++ i2osp n 4 | Digest | Reset => [] end.
Fixpoint digests (P : sha_par) (cur : list Z) (ops : list hop) : list (list Z) :=
  match ops with
  | [] => []
  | o :: t => match o with Digest => [SHA2 P cur] | _ => [] end ++ digests P (absorbed cur o) t
  end.
Definition hop_ok (o : hop) : Prop := match o with Byte b => is_byte b | Bytes l => bytes l | _ => True end.

(** "abc" *)
Example sha256_abc : SHA2 SHA256 [97; 98; 99] = i2osp 0xba7816bf8f01cfea414140de5dae2223b00361a396177a9cb410ff61f20015ad 32.
Proof. vm_compute. reflexivity. Qed.
Example sha512_abc : SHA2 SHA512 [97; 98; 99] = i2osp 0xddaf35a193617abacc417349ae20413112e6fa4e89a97ea20a9eeee64b55d39a2192992a274fc1a836ba3c23a3feebbd454d4423643ce80e2a9ac94fa54ca49f 64.
Proof. vm_compute. reflexivity. Qed.
Example sha384_abc : SHA2 SHA384 [97; 98; 99] = i2osp 0xcb00753f45a35e8bb5a03d699ac65007272c32ab0eded1631a8b605a43ff5bed8086072ba1e7cc2358baeca134c825a7 48.
Proof. vm_compute. reflexivity. Qed.
