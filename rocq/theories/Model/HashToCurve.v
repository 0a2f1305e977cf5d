(** Model of src/hash_to_curve.rs (expand_message_xmd, hash_to_field, simplified SWU) and of the error type src/errors.rs.
    Rust [Result] is [result]; [None] is still a panic.  [usize] is 64 bits wide. *)
From Verif Require Import Base.Word Base.Arr Model.Big Model.Roms Model.Sha2 Model.Fp Model.Fp2.

(** errors.rs:2-11 *)
Inductive amcl_error := AggregateEmptyPoints | HashToFieldError | InvalidSecretKeySize | InvalidSecretKeyRange
  | InvalidPoint | InvalidG1Size | InvalidG2Size | InvalidYFlag.
Inductive result (A : Type) := Ok (a : A) | Err (e : amcl_error).
Arguments Ok {A} a.
Arguments Err {A} e.
(** the [?] operator *)
Definition rbind {A B} (x : option (result A)) (f : A -> option (result B)) : option (result B) :=
  match x with
  | None => None
  | Some (Err e) => Some (Err e)
  | Some (Ok a) => f a
  end.

(** checked / wrapping usize multiplication and addition *)
Definition usz (bd : build) (x : Z) : option Z :=
  if x <? 2 ^ 64 then Some x else match bd with Debug => None | Release => Some (x mod 2 ^ 64) end.

(** hash_to_curve.rs:15 OVERSIZED_DST = b"H2C-OVERSIZE-DST-" *)
Definition OVERSIZED_DST : list Z := [72; 50; 67; 45; 79; 86; 69; 82; 83; 73; 90; 69; 45; 68; 83; 84; 45].
(** rom_bls381_*.rs H2C_L; HASH_ALGORITHM = Sha256 is the parameter [C] below *)
Definition H2C_L : Z := 64.

Section H2C.
Variable C : sha.
Variable bd : build.
(** hash_to_curve.rs:43-64 hash: new, init, process_array, hash *)
Definition h2c_hash (m : list Z) : option (list Z) :=
  s <- process_array C bd (h_init C (h_new C)) m ;;
  ds <- hash C bd s ;; Some (fst ds).
Definition hlen : Z := Z.of_nat (sOut C).

(** hash_to_curve.rs:130-144 dst_prime *)
Definition dst_prime (dst : list Z) : option (list Z) :=
  if 255 <? Z.of_nat (length dst) then
    t <- h2c_hash (OVERSIZED_DST ++ dst) ;; Some (t ++ [wrapu 8 hlen])
  else Some (dst ++ [wrapu 8 (Z.of_nat (length dst))]).

(** hash_to_curve.rs:168-184 the loop over 2..=ell; [prev] is b[i-1]; an index beyond the end of b[i-1] panics *)
Fixpoint xmd_loop (n : nat) (i : Z) (b0 prev dp : list Z) : option (list Z) :=
  match n with
  | O => Some []
  | S m =>
      if (length prev <? length b0)%nat then None else
      bi <- h2c_hash (xorl b0 prev ++ [wrapu 8 i] ++ dp) ;;
      rest <- xmd_loop m (i + 1) b0 bi dp ;;
      Some (bi ++ rest)
  end.

(** hash_to_curve.rs:118-188 expand_message_xmd *)
Definition expand_message_xmd (msg : list Z) (len : Z) (dst : list Z) : option (result (list Z)) :=
  s <- usz bd (len + hlen) ;;
  s1 <- (if s <? 1 then match bd with Debug => None | Release => Some (2 ^ 64 - 1) end else Some (s - 1)) ;;
  let ell := s1 / hlen in
  if 255 <? ell then Some (Err HashToFieldError) else
  dp <- dst_prime dst ;;
  let l16 := wrapu 16 len in
  b0 <- h2c_hash (repeat 0 (BLOCK C) ++ msg ++ [l16 / 256; l16 mod 256] ++ [0] ++ dp) ;;
  b1 <- h2c_hash (b0 ++ [1] ++ dp) ;;
  rest <- xmd_loop (Z.to_nat ell - 1) 2 b0 b1 dp ;;
  let all := b1 ++ rest in
  if Z.of_nat (length all) <? len then None else Some (Ok (firstn (Z.to_nat len) all)).

Variable r : rom.
Notation c := (r_cfg r).
(** &bytes[off .. off+64], an out-of-range slice panics *)
Definition slice64 (b : list Z) (off : Z) : option (list Z) :=
  if Z.of_nat (length b) <? off + H2C_L then None else Some (firstn 64 (skipn (Z.to_nat off) b)).
(** DBig::frombytes(..).dmod(&p) *)
Definition elem_big (b : list Z) (off : Z) : option (list Z) :=
  s <- slice64 b off ;; d <- dfrombytes c s ;; dmod c d (r_MODULUS r).
(** Vec::with_capacity(count): more than isize::MAX bytes panics; FP is at least 60 bytes, so every count from 2^58 on *)
Definition capacity (count : Z) : option unit := if count <? 2 ^ 58 then Some tt else None.

Fixpoint h2f1_loop (n : nat) (i : Z) (b : list Z) : option (list fp) :=
  match n with
  | O => Some []
  | S m =>
      e <- elem_big b (H2C_L * i) ;;
      f <- fp_new_big r e ;;
      rest <- h2f1_loop m (i + 1) b ;; Some (f :: rest)
  end.
(** hash_to_curve.rs:70-87 hash_to_field_fp *)
Definition hash_to_field_fp (msg : list Z) (count : Z) (dst : list Z) : option (result (list fp)) :=
  l <- usz bd (count * 1) ;; len <- usz bd (l * H2C_L) ;;
  rbind (expand_message_xmd msg len dst) (fun b =>
    _ <- capacity count ;; us <- h2f1_loop (Z.to_nat count) 0 b ;; Some (Ok us)).

Fixpoint h2f2_loop (n : nat) (i : Z) (b : list Z) : option (list fp2) :=
  match n with
  | O => Some []
  | S m =>
      e0 <- elem_big b (H2C_L * (0 + i * 2)) ;;
      e1 <- elem_big b (H2C_L * (1 + i * 2)) ;;
      f <- fp2_new_bigs r e0 e1 ;;
      rest <- h2f2_loop m (i + 1) b ;; Some (f :: rest)
  end.
(** hash_to_curve.rs:93-113 hash_to_field_fp2 *)
Definition hash_to_field_fp2 (msg : list Z) (count : Z) (dst : list Z) : option (result (list fp2)) :=
  l <- usz bd (count * 2) ;; len <- usz bd (l * H2C_L) ;;
  rbind (expand_message_xmd msg len dst) (fun b =>
    _ <- capacity count ;; us <- h2f2_loop (Z.to_nat count) 0 b ;; Some (Ok us)).
End H2C.
