(** NewHope over Z_q[x]/(x^1024+1), q = 12289: what the API is supposed to compute, without transforms or Montgomery forms. *)
From Verif Require Import Base.Word Base.Arr Spec.Sha3Spec.

Definition q : Z := 12289.
Definition N : nat := 1024.
Definition cgq (a b : Z) : Prop := a mod q = b mod q.
(** polynomials are coefficient functions, read below N *)
Definition poly := nat -> Z.
Definition of_list (l : list Z) : poly := fun i => at_ l i.
Fixpoint sum (f : nat -> Z) (n : nat) : Z := match n with O => 0 | S n => sum f n + f n end.
(** the product modulo x^N + 1 *)
Definition nega (a b : poly) (k : nat) : Z := sum (fun i => a i * (if (i <=? k)%nat then b (k - i)%nat else - b (k + N - i)%nat)) N.
(** Montgomery's constant of the code *)
Definition RR : Z := 2 ^ 32.
(** the points at which the transform evaluates: the p-th one, given the table of square roots *)
Definition ones8 (b : Z) : Z := fold_right (fun i s => Z.land (Z.shiftr b i) 1 + s) 0 [0;1;2;3;4;5;6;7].
(** the 1024 roots of x^N + 1, in bit-reversed order: root p = 7^(2 rev(p) + 1), 7 being a 2048-th root of unity mod q *)
Fixpoint rev_bits (n : nat) (p : nat) : nat := match n with O => 0%nat | S n => (2 ^ n * (p mod 2) + rev_bits n (p / 2))%nat end.
Definition root (p : nat) : Z := 7 ^ Z.of_nat (2 * rev_bits 10 p + 1) mod q.
Definition value (a : poly) (p : nat) : Z := sum (fun k => a k * root p ^ Z.of_nat k) N.
(** the centred binomial noise polynomial given by 4096 bytes: coefficient i is the number of ones of two bytes minus that of the next two *)
Definition noise (bs : list Z) : poly := fun i =>
  ones8 (at_ bs (4 * i)) + ones8 (at_ bs (4 * i + 1)) - ones8 (at_ bs (4 * i + 2)) - ones8 (at_ bs (4 * i + 3)).
(** the public polynomial of a 32-byte seed, given by its values at the roots: 31-bit big-endian numbers cut from SHAKE128(seed) *)
Definition public_value (seed : list Z) (p : nat) : Z :=
  let h := SHAKE 16 seed 4096 in
  ((at_ h (4 * p) mod 128 * 256 + at_ h (4 * p + 1)) * 256 + at_ h (4 * p + 2)) * 256 + at_ h (4 * p + 3).
