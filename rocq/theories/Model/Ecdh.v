(** Model of the hash, KDF, MAC and AES-CBC parts of src/ecdh.rs (lines 44-389, and ncomp 661-670).  The elliptic curve parts are modelled separately.
    A caller's output slice is a list; every function returns the updated slice.  [None] = panic. *)
From Verif Require Import Base.Word Base.Arr Model.Aes Model.Sha2.

(** w[off..off+|bs|] = bs; an index outside w panics *)
Definition put (w : list Z) (off : nat) (bs : list Z) : option (list Z) :=
  if (off + length bs <=? length w)%nat then Some (firstn off w ++ bs ++ skipn (off + length bs) w) else None.
(* ecdh.rs:44-52 inttobytes, with i and m the loop variables *)
Fixpoint int_loop (i : nat) (m : Z) (b : list Z) : list Z :=
  match i with
  | O => b
  | S j => if 0 <? m then int_loop j (m / 256) (aset b j (Z.land m 255)) else b
  end.
Definition inttobytes (n : Z) (b : list Z) : list Z := int_loop (length b) n b.
(* the three [if sha == ...] of hashit *)
Definition hash_for (sha : nat) : option Sha2.sha :=
  if Nat.eqb sha 32 then Some sha256 else if Nat.eqb sha 48 then Some sha384 else if Nat.eqb sha 64 then Some sha512 else None.
(* ecdh.rs:55-99: the array r; for an unknown sha it stays zero *)
Definition hash_parts (bd : build) (sha : nat) (a : list Z) (n : Z) (b : option (list Z)) : option (list Z) :=
  match hash_for sha with
  | Some C =>
      s <- process_array C bd (h_new C) a ;;
      s <- (if 0 <? n then process_num C bd s (wrap 32 n) else Some s) ;;
      s <- match b with Some x => process_array C bd s x | None => Some s end ;;
      d <- Sha2.hash C bd s ;;
      Some (fst d ++ repeat 0 (64 - sha))
  | None => Some (repeat 0 64)
  end.
(* ecdh.rs:55-118 *)
Definition hashit (bd : build) (sha : nat) (a : list Z) (n : Z) (b : option (list Z)) (pad : nat) (w : list Z) : option (list Z) :=
  r <- hash_parts bd sha a n b ;;
  let used := if Nat.eqb pad 0 then sha else Nat.min pad sha in
  if (64 <? used)%nat then None else
  put w 0 (if Nat.eqb pad 0 then firstn sha r else if (pad <=? sha)%nat then firstn pad r else repeat 0 (pad - sha) ++ firstn sha r).
(* ecdh.rs:133-147 / 163-177: the loop over the counter *)
Fixpoint kdf_loop (bd : build) (sha : nat) (z : list Z) (p : option (list Z)) (olen : nat) (counters : list nat) (lk : nat) (k : list Z) : option (list Z) :=
  match counters with
  | [] => Some k
  | c :: t =>
      b <- hashit bd sha z (Z.of_nat c) p 0 (repeat 0 64) ;;
      let n := if (olen <? lk + sha)%nat then (olen mod sha)%nat else sha in
      k <- put k lk (firstn n b) ;;
      kdf_loop bd sha z p olen t (lk + n) k
  end.
Definition cthreshold (sha olen : nat) : nat := if Nat.eqb (olen mod sha) 0 then (olen / sha)%nat else (olen / sha + 1)%nat.
(* ecdh.rs:123-148; division by hlen = 0 panics *)
Definition kdf1 (bd : build) (sha : nat) (z : list Z) (olen : nat) (k : list Z) : option (list Z) :=
  if Nat.eqb sha 0 then None else kdf_loop bd sha z None olen (seq 0 (cthreshold sha olen)) 0 k.
(* ecdh.rs:153-178 *)
Definition kdf2 (bd : build) (sha : nat) (z : list Z) (p : option (list Z)) (olen : nat) (k : list Z) : option (list Z) :=
  if Nat.eqb sha 0 then None else kdf_loop bd sha z p olen (seq 1 (cthreshold sha olen)) 0 k.

(* ecdh.rs:227-269; returns (success, tag) *)
Definition hmac (bd : build) (sha : nat) (m k : list Z) (olen : nat) (tag : list Z) : option (bool * list Z) :=
  if (olen <? 4)%nat then Some (false, tag) else
  let lb := if (32 <? sha)%nat then 128%nat else 64%nat in
  k0 <- (if (lb <? length k)%nat then (b <- hashit bd sha k 0 None 0 (repeat 0 64) ;; put (repeat 0 128) 0 (firstn sha b)) else put (repeat 0 128) 0 k) ;;
  let k0 := map (Z.lxor 0x36) (firstn lb k0) ++ skipn lb k0 in
  b <- hashit bd sha (firstn lb k0) 0 (Some m) 0 (repeat 0 64) ;;
  let k0 := map (Z.lxor 0x6a) (firstn lb k0) ++ skipn lb k0 in
  tag <- hashit bd sha (firstn lb k0) 0 (Some (firstn sha b)) olen tag ;;
  Some (true, tag).

(* ecdh.rs:210-216: rep - 1 further turns; u is passed whole, all 64 bytes *)
Fixpoint pbkdf_turns (bd : build) (n sha : nat) (pass u f ku : list Z) : option (list Z * list Z * list Z) :=
  match n with
  | O => Some (u, f, ku)
  | S m =>
      q <- hmac bd sha u pass sha ku ;;
      let ku := snd q in
      u <- put u 0 (firstn sha ku) ;;
      let f := xorl (firstn sha f) (firstn sha u) ++ skipn sha f in
      pbkdf_turns bd m sha pass u f ku
  end.
(* 217-222: for j in 0..EFS *)
Fixpoint pbkdf_out (js : list nat) (olen kp : nat) (f k : list Z) : option (list Z) :=
  match js with
  | [] => Some k
  | j :: t => k <- (if ((kp <? olen) && (kp <? 64))%nat then put k kp [at_ f j] else Some k) ;; pbkdf_out t olen (S kp) f k
  end.
(* 198-223: the loop over the blocks; n is the 4-byte counter buffer *)
Fixpoint pbkdf_blocks (bd : build) (sha efs : nat) (pass salt : list Z) (rep olen : nat) (is : list nat) (n u f ku k : list Z) : option (list Z) :=
  match is with
  | [] => Some k
  | i :: t =>
      s <- put (repeat 0 36) 0 salt ;;
      let n := inttobytes (Z.of_nat i + 1) n in
      s <- put s (length salt) n ;;
      q <- hmac bd sha (firstn (length salt + 4) s) pass sha f ;;
      let f := snd q in
      u <- put u 0 (firstn sha f) ;;
      q <- pbkdf_turns bd (rep - 1) sha pass u f ku ;;
      let '(u, f, ku) := q in
      k <- pbkdf_out (seq 0 efs) olen (i * efs) f k ;;
      pbkdf_blocks bd sha efs pass salt rep olen t n u f ku k
  end.
(* ecdh.rs:183-224; [efs] is the constant EFS = MODBYTES of the curve.  The array s is rewritten at the same places in every turn, so it is
   started from zero each time here. *)
Definition pbkdf2 (bd : build) (efs sha : nat) (pass salt : list Z) (rep olen : nat) (k : list Z) : option (list Z) :=
  if Nat.eqb sha 0 then None else
  pbkdf_blocks bd sha efs pass salt rep olen (seq 0 (cthreshold sha olen)) (repeat 0 4) (repeat 0 64) (repeat 0 64) (repeat 0 64) k.

(* ecdh.rs:272-321; the loop fills buff with the next 16 bytes, or leaves with i < 16 of them *)
Fixpoint cbc_enc_loop (fuel : nat) (bd : build) (a : aes) (m : list Z) : option (list Z) :=
  match fuel with
  | O => None
  | S f =>
      if (16 <=? length m)%nat then
        r <- aes_encrypt bd a (firstn 16 m) ;;
        let '(_, c, a) := r in
        t <- cbc_enc_loop f bd a (skipn 16 m) ;; Some (c ++ t)
      else
        let padlen := (16 - length m)%nat in
        r <- aes_encrypt bd a (m ++ repeat (Z.of_nat padlen) padlen) ;;
        let '(_, c, _) := r in Some c
  end.
(* the boolean returned by init is ignored *)
Definition cbc_iv0_encrypt (bd : build) (k m : list Z) : option (list Z) :=
  r <- aes_init aes_new CBC (length k) k None ;;
  cbc_enc_loop (S (length m)) bd (snd r) m.
(* ecdh.rs:324-389, the loop 343-363: result = bytes pushed, last decrypted buffer, final i.  A short last block leaves the rest of the
   buffer as it was *)
Fixpoint cbc_dec_loop (fuel : nat) (bd : build) (a : aes) (buff c : list Z) : option (list Z * list Z * nat) :=
  match fuel with
  | O => None
  | S f =>
      if (length c <=? 16)%nat then
        r <- aes_decrypt bd a (c ++ skipn (length c) buff) ;;
        let '(_, b, _) := r in Some ([], b, (length c - 1)%nat)
      else
        r <- aes_decrypt bd a (firstn 16 c) ;;
        let '(_, b, a) := r in
        q <- cbc_dec_loop f bd a b (skipn 16 c) ;;
        let '(m, b', i) := q in Some (b ++ m, b', i)
  end.
(* the outer option is panic, the inner one the function's result *)
Definition cbc_iv0_decrypt (bd : build) (k c : list Z) : option (option (list Z)) :=
  r <- aes_init aes_new CBC (length k) k None ;;
  if Nat.eqb (length c) 0 then Some None else
  q <- cbc_dec_loop (S (length c)) bd (snd r) (repeat 0 16) c ;;
  let '(m, b, i) := q in
  let padlen := at_ b 15 in
  let bad := negb (Nat.eqb i 15) || (padlen <? 1) || (16 <? padlen) in
  let bad := if (2 <=? padlen) && (padlen <=? 16) then bad || existsb (fun j => negb (at_ b j =? padlen)) (seq (16 - Z.to_nat padlen) (Z.to_nat padlen)) else bad in
  if bad then Some None else Some (Some (m ++ firstn (16 - Z.to_nat padlen) b)).

(* ecdh.rs:661-670; indices outside panic *)
Definition ncomp (t1 t2 : list Z) (n : nat) : option bool :=
  if ((n <=? length t1) && (n <=? length t2))%nat then
    Some (fold_left (fun r i => Z.lor r (Z.lxor (at_ t1 i) (at_ t2 i))) (seq 0 n) 0 =? 0)
  else None.
