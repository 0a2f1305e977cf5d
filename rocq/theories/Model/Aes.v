(** Model of src/aes.rs.  u8/u32 are integers in range; tables in Model/AesTables.v; the 60-word key arrays and the
    16-byte register are lists.  Table and array indices inside the cipher are in range by construction ([& 0xff],
    fixed-size arrays), so [at_] is total there; the caller's key slice is checked. *)
From Verif Require Import Base.Word Base.Arr Model.AesTables.

Definition tab (t : list Z) (x : Z) : Z := nth (Z.to_nat x) t 0.       (* TABLE[x as usize] *)
Definition shl32 (x k : Z) : Z := wrapu 32 (Z.shiftl x k).

(* src/aes.rs:186-196 *)
Definition rotl8 (x : Z) : Z := Z.lor (shl32 x 8) (Z.shiftr x 24).
Definition rotl16 (x : Z) : Z := Z.lor (shl32 x 16) (Z.shiftr x 16).
Definition rotl24 (x : Z) : Z := Z.lor (shl32 x 24) (Z.shiftr x 8).
(* src/aes.rs:198-204 *)
Definition pack (b : list Z) : Z :=
  Z.lor (Z.lor (Z.lor (shl32 (Z.land (at_ b 3) 255) 24) (shl32 (Z.land (at_ b 2) 255) 16)) (shl32 (Z.land (at_ b 1) 255) 8)) (Z.land (at_ b 0) 255).
(* src/aes.rs:206-214 *)
Definition unpack (a : Z) : list Z :=
  [Z.land a 255; Z.land (Z.shiftr a 8) 255; Z.land (Z.shiftr a 16) 255; Z.land (Z.shiftr a 24) 255].
(* src/aes.rs:216-228 *)
Definition bmul (x y : Z) : Z :=
  let lx := tab LTAB x in let ly := tab LTAB y in
  if negb (x =? 0) && negb (y =? 0) then tab PTAB ((lx + ly) mod 255) else 0.
(* src/aes.rs:230-237 *)
Definition subbyte (a : Z) : Z := pack (map (tab FBSUB) (unpack a)).
(* src/aes.rs:239-248 *)
Definition product (x y : Z) : Z :=
  let xb := unpack x in let yb := unpack y in
  Z.lxor (Z.lxor (Z.lxor (bmul (at_ xb 0) (at_ yb 0)) (bmul (at_ xb 1) (at_ yb 1))) (bmul (at_ xb 2) (at_ yb 2))) (bmul (at_ xb 3) (at_ yb 3)).
(* src/aes.rs:250-263 *)
Definition invmixcol (x : Z) : Z :=
  let m := pack INCO in let b3 := product m x in
  let m := rotl24 m in let b2 := product m x in
  let m := rotl24 m in let b1 := product m x in
  let m := rotl24 m in let b0 := product m x in
  pack [b0; b1; b2; b3].
(* src/aes.rs:265-272: f[i] += 1 is an overflow-checked u8 addition *)
Fixpoint increment_from (b : build) (f : list Z) : option (list Z) :=
  match f with
  | [] => Some []
  | x :: t => y <- uadd b 8 x 1 ;; if negb (y =? 0) then Some (y :: t) else (t' <- increment_from b t ;; Some (y :: t'))
  end.
Definition increment := increment_from.

Record aes := mkaes { a_nk : nat; a_nr : nat; a_mode : nat; a_fkey : list Z; a_rkey : list Z; a_f : list Z }.
(* src/aes.rs:274-283 *)
Definition aes_new : aes := mkaes 0 0 0 (repeat 0 60) (repeat 0 60) (repeat 0 16).

(* src/aes.rs:20-34 *)
Definition ECB : nat := 0.
Definition CBC : nat := 1.
Definition CFB1 : nat := 2.
Definition CFB2 : nat := 3.
Definition CFB4 : nat := 5.
Definition OFB1 : nat := 14.
Definition OFB2 : nat := 15.
Definition OFB4 : nat := 17.
Definition OFB8 : nat := 21.
Definition OFB16 : nat := 29.
Definition CTR1 : nat := 30.
Definition CTR2 : nat := 31.
Definition CTR4 : nat := 33.
Definition CTR8 : nat := 37.
Definition CTR16 : nat := 45.

(* src/aes.rs:286-299; iv : Option<[u8;16]> *)
Definition aes_reset (a : aes) (m : nat) (iv : option (list Z)) : aes :=
  let f := if Nat.eqb m ECB then repeat 0 16 else match iv with Some x => x | None => repeat 0 16 end in
  mkaes (a_nk a) (a_nr a) m (a_fkey a) (a_rkey a) f.

(** key schedule, src/aes.rs:301-376 *)
(* 310-317: cipherkey[i] = pack(key[4i..4i+4]); None = key slice too short *)
Fixpoint load_key (nk : nat) (key : list Z) : option (list Z) :=
  match nk with
  | O => Some []
  | S n => match key with b0 :: b1 :: b2 :: b3 :: t => (r <- load_key n t ;; Some (pack [b0; b1; b2; b3] :: r)) | _ => None end
  end.
(* 319-321: copy into fkey *)
Fixpoint copy_into (dst src : list Z) (i : nat) : list Z :=
  match src with [] => dst | x :: t => copy_into (aset dst i x) t (S i) end.
(* 329-334, 336-341, 346-351: for i in is { if i+j >= n {break}; fkey[i+j] = fkey[i+j-nk] ^ fkey[i+j-1] } *)
Fixpoint ks_inner (nk j n : nat) (is : list nat) (fkey : list Z) : list Z :=
  match is with
  | [] => fkey
  | i :: r => if (n <=? i + j)%nat then fkey
              else ks_inner nk j n r (aset fkey (i + j) (Z.lxor (at_ fkey (i + j - nk)) (at_ fkey (i + j - 1))))
  end.
(* 326-353: one turn of the while loop *)
Definition ks_step (nk j n k : nat) (fkey : list Z) : list Z :=
  let fkey := aset fkey j (Z.lxor (Z.lxor (at_ fkey (j - nk)) (subbyte (rotl24 (at_ fkey (j - 1))))) (at_ RCO k)) in
  if (nk <=? 6)%nat then ks_inner nk j n (seq 1 (nk - 1)) fkey
  else
    let fkey := ks_inner nk j n (seq 1 3) fkey in
    let fkey := if (j + 4 <? n)%nat then aset fkey (j + 4) (Z.lxor (at_ fkey (j + 4 - nk)) (subbyte (at_ fkey (j + 3)))) else fkey in
    ks_inner nk j n (seq 5 (nk - 5)) fkey.
(* 325: while j < n; [fuel] bounds the number of turns, n is enough because j grows *)
Fixpoint ks_loop (fuel nk j n k : nat) (fkey : list Z) : list Z :=
  match fuel with
  | O => fkey
  | S f => if (j <? n)%nat then ks_loop f nk (j + nk) n (S k) (ks_step nk j n k fkey) else fkey
  end.
(* 360-375: reversed decryption key *)
Definition set4 (dst : list Z) (k : nat) (v : nat -> Z) : list Z :=
  aset (aset (aset (aset dst k (v 0%nat)) (k + 1) (v 1%nat)) (k + 2) (v 2%nat)) (k + 3) (v 3%nat).
Fixpoint rk_loop (fuel n i : nat) (fkey rkey : list Z) : list Z :=
  match fuel with
  | O => rkey
  | S f => if (i <? n - 4)%nat then rk_loop f n (i + 4) fkey (set4 rkey (n - 4 - i) (fun j => invmixcol (at_ fkey (i + j)))) else rkey
  end.
Definition rkey_of (n : nat) (fkey rkey : list Z) : list Z :=
  let r := set4 rkey (n - 4) (fun j => at_ fkey j) in
  let r := rk_loop n n 4 fkey r in
  set4 r 0 (fun j => at_ fkey (n - 4 + j)).
(* src/aes.rs:301-378 *)
Definition aes_init (a : aes) (m nkey : nat) (key : list Z) (iv : option (list Z)) : option (bool * aes) :=
  let nk := (nkey / 4)%nat in
  if negb (Nat.eqb nk 4) && negb (Nat.eqb nk 6) && negb (Nat.eqb nk 8) then Some (false, a) else
  let nr := (6 + nk)%nat in
  let a := aes_reset (mkaes nk nr (a_mode a) (a_fkey a) (a_rkey a) (a_f a)) m iv in
  let n := (4 * (nr + 1))%nat in
  ck <- load_key nk key ;;
  let fkey := copy_into (a_fkey a) ck 0 in
  let fkey := ks_loop n nk nk n 0 fkey in
  let rkey := rkey_of n fkey (a_rkey a) in
  Some (true, mkaes nk nr m fkey rkey (a_f a)).

(** block encryption, src/aes.rs:389-469 *)
Definition b0 (x : Z) := Z.land x 255.
Definition b1 (x : Z) := Z.land (Z.shiftr x 8) 255.
Definition b2 (x : Z) := Z.land (Z.shiftr x 16) 255.
Definition b3 (x : Z) := Z.land (Z.shiftr x 24) 255.
(* one column: key ^ T[w0.b0] ^ rotl8 T[w1.b1] ^ rotl16 T[w2.b2] ^ rotl24 T[w3.b3] *)
Definition tcol (T : list Z) (key w0 w1 w2 w3 : Z) : Z :=
  Z.lxor (Z.lxor (Z.lxor (Z.lxor key (tab T (b0 w0))) (rotl8 (tab T (b1 w1)))) (rotl16 (tab T (b2 w2)))) (rotl24 (tab T (b3 w3))).
(* 411-433 (FTABLE) and 444-466 (FBSUB) *)
Definition enc_round (T fkey : list Z) (k : nat) (p : Z * Z * Z * Z) : Z * Z * Z * Z :=
  let '(p0, p1, p2, p3) := p in
  (tcol T (at_ fkey k) p0 p1 p2 p3, tcol T (at_ fkey (k + 1)) p1 p2 p3 p0,
   tcol T (at_ fkey (k + 2)) p2 p3 p0 p1, tcol T (at_ fkey (k + 3)) p3 p0 p1 p2).
(* 410-441: for _ in 1..nr *)
Fixpoint enc_rounds (cnt : nat) (fkey : list Z) (k : nat) (p : Z * Z * Z * Z) : nat * (Z * Z * Z * Z) :=
  match cnt with O => (k, p) | S c => enc_rounds c fkey (k + 4) (enc_round FTABLE fkey k p) end.
(* 396-404 *)
Definition load_block (buff key : list Z) : Z * Z * Z * Z :=
  let w i := Z.lxor (pack [at_ buff (4 * i); at_ buff (4 * i + 1); at_ buff (4 * i + 2); at_ buff (4 * i + 3)]) (at_ key i) in
  (w 0%nat, w 1%nat, w 2%nat, w 3%nat).
Definition store_block (q : Z * Z * Z * Z) : list Z :=
  let '(q0, q1, q2, q3) := q in unpack q0 ++ unpack q1 ++ unpack q2 ++ unpack q3.
Definition ecb_encrypt (a : aes) (buff : list Z) : list Z :=
  let p := load_block buff (a_fkey a) in
  let '(k, p) := enc_rounds (a_nr a - 1) (a_fkey a) 4 p in
  store_block (enc_round FBSUB (a_fkey a) k p).
(** block decryption, src/aes.rs:472-552 *)
Definition dec_round (T rkey : list Z) (k : nat) (p : Z * Z * Z * Z) : Z * Z * Z * Z :=
  let '(p0, p1, p2, p3) := p in
  (tcol T (at_ rkey k) p0 p3 p2 p1, tcol T (at_ rkey (k + 1)) p1 p0 p3 p2,
   tcol T (at_ rkey (k + 2)) p2 p1 p0 p3, tcol T (at_ rkey (k + 3)) p3 p2 p1 p0).
Fixpoint dec_rounds (cnt : nat) (rkey : list Z) (k : nat) (p : Z * Z * Z * Z) : nat * (Z * Z * Z * Z) :=
  match cnt with O => (k, p) | S c => dec_rounds c rkey (k + 4) (dec_round RTABLE rkey k p) end.
Definition ecb_decrypt (a : aes) (buff : list Z) : list Z :=
  let p := load_block buff (a_rkey a) in
  let '(k, p) := dec_rounds (a_nr a - 1) (a_rkey a) 4 p in
  store_block (dec_round RBSUB (a_rkey a) k p).

Definition set_f (a : aes) (f : list Z) : aes := mkaes (a_nk a) (a_nr a) (a_mode a) (a_fkey a) (a_rkey a) f.
Inductive mclass := MECB | MCBC | MCFB (n : nat) | MOFB (n : nat) | MCTR (n : nat) | MNONE.
(* the match arms of encrypt/decrypt, with [bytes] = mode - XXX1 + 1 *)
Definition classify (m : nat) : mclass :=
  if Nat.eqb m ECB then MECB else if Nat.eqb m CBC then MCBC
  else if Nat.eqb m CFB1 || Nat.eqb m CFB2 || Nat.eqb m CFB4 then MCFB (m - CFB1 + 1)
  else if Nat.eqb m OFB1 || Nat.eqb m OFB2 || Nat.eqb m OFB4 || Nat.eqb m OFB8 || Nat.eqb m OFB16 then MOFB (m - OFB1 + 1)
  else if Nat.eqb m CTR1 || Nat.eqb m CTR2 || Nat.eqb m CTR4 || Nat.eqb m CTR8 || Nat.eqb m CTR16 then MCTR (m - CTR1 + 1)
  else MNONE.
(* fell_off = (fell_off << 8) | f[j] *)
Definition felloff (n : nat) (f : list Z) : Z := fold_left (fun acc x => Z.lor (shl32 acc 8) x) (firstn n f) 0.
(* buff[j] ^= st[j] for j in 0..n *)
Definition xor_prefix (n : nat) (buff st : list Z) : list Z := xorl (firstn n buff) (firstn n st) ++ skipn n buff.
(* src/aes.rs:555-627; returns (return value, buffer, object) *)
Definition aes_encrypt (b : build) (a : aes) (buff : list Z) : option (Z * list Z * aes) :=
  match classify (a_mode a) with
  | MECB => Some (0, ecb_encrypt a buff, a)
  | MCBC => let c := ecb_encrypt a (xorl buff (a_f a)) in Some (0, c, set_f a c)
  | MCFB n => let st := ecb_encrypt a (a_f a) in let c := xor_prefix n buff st in
              Some (felloff n (a_f a), c, set_f a (skipn n (a_f a) ++ firstn n c))
  | MOFB n => let st := ecb_encrypt a (a_f a) in Some (0, xor_prefix n buff st, set_f a st)
  | MCTR n => let st := ecb_encrypt a (a_f a) in f <- increment b (a_f a) ;; Some (0, xor_prefix n buff st, set_f a f)
  | MNONE => Some (0, buff, a)
  end.
(* src/aes.rs:630-700 *)
Definition aes_decrypt (b : build) (a : aes) (buff : list Z) : option (Z * list Z * aes) :=
  match classify (a_mode a) with
  | MECB => Some (0, ecb_decrypt a buff, a)
  | MCBC => Some (0, xorl (ecb_decrypt a buff) (a_f a), set_f a buff)
  | MCFB n => let st := ecb_encrypt a (a_f a) in
              Some (felloff n (a_f a), xor_prefix n buff st, set_f a (skipn n (a_f a) ++ firstn n buff))
  | MOFB n => let st := ecb_encrypt a (a_f a) in Some (0, xor_prefix n buff st, set_f a st)
  | MCTR n => let st := ecb_encrypt a (a_f a) in f <- increment b (a_f a) ;; Some (0, xor_prefix n buff st, set_f a f)
  | MNONE => Some (0, buff, a)
  end.
(* src/aes.rs:703-712 *)
Definition aes_end (a : aes) : aes :=
  let n := (4 * (a_nr a + 1))%nat in
  mkaes (a_nk a) (a_nr a) (a_mode a) (repeat 0 n ++ skipn n (a_fkey a)) (repeat 0 n ++ skipn n (a_rkey a)) (repeat 0 16).
