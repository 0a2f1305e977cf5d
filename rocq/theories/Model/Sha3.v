(** Model of src/sha3.rs.  s[i][j] is entry 5i+j of a flat list of 25 words. *)
From Verif Require Import Base.Word Base.Arr.

(* sha3.rs:29-54 *)
Definition RC : list Z := [
  0x0000000000000001; 0x0000000000008082; 0x800000000000808A; 0x8000000080008000; 0x000000000000808B; 0x0000000080000001; 0x8000000080008081; 0x8000000000008009;
  0x000000000000008A; 0x0000000000000088; 0x0000000080008009; 0x000000008000000A; 0x000000008000808B; 0x800000000000008B; 0x8000000000008089; 0x8000000000008003;
  0x8000000000008002; 0x8000000000000080; 0x000000000000800A; 0x800000008000000A; 0x8000000080008081; 0x8000000000008080; 0x0000000080000001; 0x8000000080008008].
Definition ROUNDS : nat := 24.
Definition ix (i j : nat) : nat := (5 * i + j)%nat.
Definition sat (s : list Z) (i j : nat) : Z := at_ s (ix i j).

(* 64-66 *)
Definition rotl (x n : Z) : Z := Z.lor (wrapu 64 (Z.shiftl x n)) (Z.shiftr x (64 - n)).
(* 75-79 *)
Definition colx (s : list Z) (i : nat) : Z := Z.lxor (Z.lxor (Z.lxor (Z.lxor (sat s i 0) (sat s i 1)) (sat s i 2)) (sat s i 3)) (sat s i 4).
(* 81-91 *)
Definition theta_step (s : list Z) : list Z :=
  let c := map (colx s) (seq 0 5) in
  let d := [Z.lxor (at_ c 4) (rotl (at_ c 1) 1); Z.lxor (at_ c 0) (rotl (at_ c 2) 1); Z.lxor (at_ c 1) (rotl (at_ c 3) 1);
            Z.lxor (at_ c 2) (rotl (at_ c 4) 1); Z.lxor (at_ c 3) (rotl (at_ c 0) 1)] in
  flat_map (fun i => map (fun j => Z.lxor (sat s i j) (at_ d i)) (seq 0 5)) (seq 0 5).
(* 93-121: the assignments to b, in the order of the source *)
Definition rhopi_step (s : list Z) : list Z :=
  let b := repeat 0 25 in
  let b := aset b (ix 0 0) (sat s 0 0) in
  let b := aset b (ix 1 3) (rotl (sat s 0 1) 36) in
  let b := aset b (ix 2 1) (rotl (sat s 0 2) 3) in
  let b := aset b (ix 3 4) (rotl (sat s 0 3) 41) in
  let b := aset b (ix 4 2) (rotl (sat s 0 4) 18) in
  let b := aset b (ix 0 2) (rotl (sat s 1 0) 1) in
  let b := aset b (ix 1 0) (rotl (sat s 1 1) 44) in
  let b := aset b (ix 2 3) (rotl (sat s 1 2) 10) in
  let b := aset b (ix 3 1) (rotl (sat s 1 3) 45) in
  let b := aset b (ix 4 4) (rotl (sat s 1 4) 2) in
  let b := aset b (ix 0 4) (rotl (sat s 2 0) 62) in
  let b := aset b (ix 1 2) (rotl (sat s 2 1) 6) in
  let b := aset b (ix 2 0) (rotl (sat s 2 2) 43) in
  let b := aset b (ix 3 3) (rotl (sat s 2 3) 15) in
  let b := aset b (ix 4 1) (rotl (sat s 2 4) 61) in
  let b := aset b (ix 0 1) (rotl (sat s 3 0) 28) in
  let b := aset b (ix 1 4) (rotl (sat s 3 1) 55) in
  let b := aset b (ix 2 2) (rotl (sat s 3 2) 25) in
  let b := aset b (ix 3 0) (rotl (sat s 3 3) 21) in
  let b := aset b (ix 4 3) (rotl (sat s 3 4) 56) in
  let b := aset b (ix 0 3) (rotl (sat s 4 0) 27) in
  let b := aset b (ix 1 1) (rotl (sat s 4 1) 20) in
  let b := aset b (ix 2 4) (rotl (sat s 4 2) 39) in
  let b := aset b (ix 3 2) (rotl (sat s 4 3) 8) in
  aset b (ix 4 0) (rotl (sat s 4 4) 14).
(* 123-127; ! on u64 *)
Definition chi_step (b : list Z) : list Z :=
  flat_map (fun i => map (fun j => Z.lxor (sat b i j) (Z.land (2 ^ 64 - 1 - sat b ((i + 1) mod 5) j) (sat b ((i + 2) mod 5) j))) (seq 0 5)) (seq 0 5).
(* 74-130 *)
Definition round (s : list Z) (k : nat) : list Z :=
  let s := chi_step (rhopi_step (theta_step s)) in aset s (ix 0 0) (Z.lxor (sat s 0 0) (at_ RC k)).
(* 68-131 *)
Definition transform (s : list Z) : list Z := fold_left round (seq 0 ROUNDS) s.

Record st3 := mkst3 { s_length : Z; s_rate : Z; s_len : Z; s_s : list Z }.
(* 134-144; usize subtraction *)
Definition init (bd : build) (olen : Z) : option st3 :=
  o2 <- (match bd with Debug => chku 64 (2 * olen) | Release => Some (wrapu 64 (2 * olen)) end) ;;
  rate <- (match bd with Debug => chku 64 (200 - o2) | Release => Some (wrapu 64 (200 - o2)) end) ;;
  Some (mkst3 0 rate olen (repeat 0 25)).
(* 146-155 *)
Definition new (bd : build) (olen : Z) : option st3 := init bd olen.
(* 158-170; the remainder by a zero rate and an index outside s panic *)
Definition process (bd : build) (t : st3) (byt : Z) : option st3 :=
  if s_rate t =? 0 then None else
  let cnt := s_length t mod s_rate t in
  let b := cnt mod 8 in let ind := cnt / 8 in
  let i := Z.to_nat (ind mod 5) in let j := Z.to_nat (ind / 5) in
  if (5 <=? ind / 5) then None else
  let s := aset (s_s t) (ix i j) (Z.lxor (sat (s_s t) i j) (Z.shiftl byt (8 * b))) in
  l <- uadd bd 64 (s_length t) 1 ;;
  Some (mkst3 l (s_rate t) (s_len t) (if cnt + 1 =? s_rate t then transform s else s)).
Fixpoint process_all (bd : build) (t : st3) (b : list Z) : option st3 :=
  match b with [] => Some t | x :: r => t <- process bd t x ;; process_all bd t r end.
(* 176-195: the three nested for loops with their breaks, over the positions p = 8(5j+i)+byte; el has been shifted right p mod 8 times.
   [n] positions are left, m bytes are written; a write outside the buffer panics *)
Fixpoint emit (n : nat) (s : list Z) (p : nat) (m olen rate blen : nat) : option (list Z * nat) :=
  match n with
  | O => Some ([], m)
  | S n' =>
      let k := (p / 8)%nat in
      let x := Z.land (Z.shiftr (sat s (k mod 5) (k / 5)) (8 * Z.of_nat (p mod 8))) 255 in
      if (blen <=? m)%nat then None else
      let m := S m in
      if ((olen <=? m) || (m mod rate =? 0))%nat then Some ([x], m)
      else (r <- emit n' s (S p) m olen rate blen ;; Some (x :: fst r, snd r))
  end.
(* 172-201: result = the bytes written from the start of the buffer, and the state.  Every turn but the last writes at least one byte *)
Fixpoint squeeze (fuel : nat) (s : list Z) (m olen rate blen : nat) : option (list Z * list Z) :=
  match fuel with
  | O => None
  | S f => r <- emit 200 s 0 m olen rate blen ;;
           if (olen <=? snd r)%nat then Some (fst r, s)
           else (q <- squeeze f (transform s) (snd r) olen rate blen ;; Some (fst r ++ fst q, snd q))
  end.
(* 209-213 / 223-226: while length % rate != rate - 1 { process(0) }; at most rate turns *)
Fixpoint pad_loop (bd : build) (fuel : nat) (t : st3) : option st3 :=
  match fuel with
  | O => Some t
  | S f => if s_length t mod s_rate t =? s_rate t - 1 then Some t else (t <- process bd t 0 ;; pad_loop bd f t)
  end.
Definition finish (bd : build) (d dlast : Z) (t : st3) : option st3 :=
  if s_rate t =? 0 then None else
  let q := s_rate t - s_length t mod s_rate t in
  if q =? 1 then process bd t dlast
  else (t <- process bd t d ;; t <- pad_loop bd (Z.to_nat (s_rate t)) t ;; process bd t 0x80).
(* 204-217 *)
Definition hash (bd : build) (t : st3) (blen : nat) : option (list Z * st3) :=
  t <- finish bd 0x06 0x86 t ;;
  r <- squeeze (S (Z.to_nat (s_len t))) (s_s t) 0 (Z.to_nat (s_len t)) (Z.to_nat (s_rate t)) blen ;;
  Some (fst r, mkst3 (s_length t) (s_rate t) (s_len t) (snd r)).
(* 219-230 *)
Definition shake (bd : build) (t : st3) (blen olen : nat) : option (list Z * st3) :=
  t <- finish bd 0x1f 0x9f t ;;
  r <- squeeze (S olen) (s_s t) 0 olen (Z.to_nat (s_rate t)) blen ;;
  Some (fst r, mkst3 (s_length t) (s_rate t) (s_len t) (snd r)).
