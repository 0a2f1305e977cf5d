(** Model of src/rand.rs. *)
From Verif Require Import Base.Word Base.Arr Model.Sha2.

Definition RAND_NK : nat := 21.
Definition RAND_NJ : nat := 6.
Definition RAND_NV : nat := 8.
(* rand.rs:28-34 *)
Record rnd := mkrnd { ira : list Z; rndptr : nat; borrow : Z; pool_ptr : nat; pool : list Z }.
(* 37-45 *)
Definition rnd_new : rnd := mkrnd (repeat 0 RAND_NK) 0 0 0 (repeat 0 32).
(* 47-57 *)
Definition rnd_clean (r : rnd) : rnd := mkrnd (repeat 0 RAND_NK) 0 0 0 (repeat 0 32).
Definition wsub (x y : Z) : Z := wrapu 32 (x - y).
(* 68-83: one turn of the loop; state = array, k, borrow *)
Definition refill_turn (st : list Z * nat * Z) (i : nat) : list Z * nat * Z :=
  let '(a, k, b) := st in
  let k := if (k =? RAND_NK)%nat then 0%nat else k in
  let t := at_ a k in
  let pdiff := wsub (wsub t (at_ a i)) b in
  let b := if pdiff <? t then 0 else b in
  let b := if t <? pdiff then 1 else b in
  (aset a i pdiff, S k, b).
(* 59-86 *)
Definition sbrand (r : rnd) : Z * rnd :=
  let p := S (rndptr r) in
  if (p <? RAND_NK)%nat then (at_ (ira r) p, mkrnd (ira r) p (borrow r) (pool_ptr r) (pool r))
  else let '(a, _, b) := fold_left refill_turn (seq 0 RAND_NK) (ira r, (RAND_NK - RAND_NJ)%nat, borrow r) in
       (at_ a 0, mkrnd a 0 b (pool_ptr r) (pool r)).
(* n calls, results in order *)
Fixpoint sbrands (n : nat) (r : rnd) : list Z * rnd :=
  match n with O => ([], r) | S m => let '(x, r) := sbrand r in let '(xs, r) := sbrands m r in (x :: xs, r) end.
(* 94-101: one turn; state = array, m, sd *)
Definition sirand_turn (st : list Z * Z * Z) (i : nat) : list Z * Z * Z :=
  let '(a, m, sd) := st in
  let inn := ((RAND_NV * i) mod RAND_NK)%nat in
  (aset a inn (Z.lxor (at_ a inn) m), wsub sd m, m).
(* 102: for _ in 0..10000 *)
Definition RAND_WARM : nat := 10000.
(* 88-105 *)
Definition sirand (r : rnd) (seed : Z) : rnd :=
  let a := aset (ira r) 0 (Z.lxor (at_ (ira r) 0) seed) in
  let '(a, _, _) := fold_left sirand_turn (seq 1 (RAND_NK - 1)) (a, 1, seed) in
  snd (sbrands RAND_WARM (mkrnd a 0 0 (pool_ptr r) (pool r))).
(* 107-117 *)
Definition fill_pool (bd : build) (r : rnd) : option rnd :=
  let '(xs, r) := sbrands 128 r in
  s <- process_array sha256 bd (h_new sha256) (map (fun x => Z.land x 255) xs) ;;
  w <- hash sha256 bd s ;;
  Some (mkrnd (ira r) (rndptr r) (borrow r) 0 (map (at_ (fst w)) (seq 0 32))).
(* 119-125 *)
Definition pack4 (b0 b1 b2 b3 : Z) : Z :=
  Z.lor (Z.lor (Z.lor (wrapu 32 (Z.shiftl (Z.land b3 255) 24)) (wrapu 32 (Z.shiftl (Z.land b2 255) 16))) (wrapu 32 (Z.shiftl (Z.land b1 255) 8))) (Z.land b0 255).
(* 128-153; raw[i] for i < rawlen panics when raw is shorter *)
Definition rnd_seed (bd : build) (r : rnd) (rawlen : nat) (raw : list Z) : option rnd :=
  let r := mkrnd (repeat 0 RAND_NK) (rndptr r) (borrow r) 0 (pool r) in
  r <- (if (0 <? rawlen)%nat then
          if (length raw <? rawlen)%nat then None else
          s <- process_array sha256 bd (h_new sha256) (firstn rawlen raw) ;;
          d <- hash sha256 bd s ;;
          Some (fold_left (fun r i => sirand r (pack4 (at_ (fst d) (4 * i)) (at_ (fst d) (4 * i + 1)) (at_ (fst d) (4 * i + 2)) (at_ (fst d) (4 * i + 3)))) (seq 0 8) r)
        else Some r) ;;
  fill_pool bd r.
(* 156-163; the pool is indexed with pool_ptr *)
Definition getbyte (bd : build) (r : rnd) : option (Z * rnd) :=
  if (32 <=? pool_ptr r)%nat then None else
  let x := at_ (pool r) (pool_ptr r) in
  let r := mkrnd (ira r) (rndptr r) (borrow r) (S (pool_ptr r)) (pool r) in
  r <- (if (32 <=? pool_ptr r)%nat then fill_pool bd r else Some r) ;;
  Some (x, r).
Fixpoint getbytes (bd : build) (n : nat) (r : rnd) : option (list Z * rnd) :=
  match n with O => Some ([], r) | S m => p <- getbyte bd r ;; q <- getbytes bd m (snd p) ;; Some (fst p :: fst q, snd q) end.
