(** What the random generator is meant to be: a Marsaglia-Zaman subtract-with-borrow generator (lags 6 and 21, base 2^32), whitened with SHA-256. *)
From Verif Require Import Base.Word Base.Arr Spec.Bytes Spec.Sha2Spec.

(** one step of x_n = x_(n-6) - x_(n-21) - borrow; the state is the window x_(n-21) .. x_(n-1) and the borrow *)
Definition swb_step (s : list Z * Z) : list Z * Z :=
  let '(w, b) := s in
  let t := nth 15 w 0 in
  let x := (t - nth 0 w 0 - b) mod 2 ^ 32 in
  (tl w ++ [x], if x =? t then b else if x <? t then 0 else 1).
Definition swb (n : nat) (s : list Z * Z) : list Z * Z := Nat.iter n swb_step s.
(** word number i of the sequence started from the 21 words X with borrow 0 *)
Definition word (X : list Z) (i : nat) : Z := nth 0 (fst (swb i (X, 0))) 0.
(** the seed word sd is mixed into the 21 words: word 0 gets sd, word 8i mod 21 gets f_i with f_1 = 1, f_2 = sd - 1, f_(i+1) = f_(i-1) - f_i *)
Fixpoint fib_words (n : nat) (prev cur : Z) : list Z :=
  match n with O => [] | S m => cur :: fib_words m cur ((prev - cur) mod 2 ^ 32) end.
Definition stir_in (A : list Z) (sd : Z) : list Z :=
  fold_left (fun a p => aset a (fst p) (Z.lxor (nth (fst p) a 0) (snd p)))
    ((0%nat, sd) :: combine (map (fun i => (8 * i) mod 21)%nat (seq 1 20)) (fib_words 20 sd 1)) A.
(** ten thousand words are thrown away; the generator then holds the batch of 21 words it is in *)
Definition warmup : nat := 10000.
Definition after_warmup (X : list Z) : list Z := fst (swb (21 * (warmup / 21)) (X, 0)).
Definition seed_words (raw : list Z) : list Z :=
  map (fun i => os2ip (rev (firstn 4 (skipn (4 * i) (SHA2 SHA256 raw))))) (seq 0 8).
(** the 21 words the output sequence starts from: the eight little-endian words of SHA-256(raw) stirred in one after the other,
    with a warm-up after each but the last *)
Definition start (raw : list Z) : list Z :=
  match seed_words raw with
  | [] => []
  | w0 :: ws => fold_left (fun X sd => stir_in (after_warmup X) sd) ws (stir_in (repeat 0 21) w0)
  end.
(** pool block k: SHA-256 of the low bytes of 128 consecutive words *)
Definition pool_block (X : list Z) (k : nat) : list Z :=
  SHA2 SHA256 (map (fun i => word X (warmup + 128 * k + 1 + i) mod 256) (seq 0 128)).
(** byte number n after seeding *)
Definition random_byte (raw : list Z) (n : nat) : Z := nth (n mod 32) (pool_block (start raw) (n / 32)) 0.
