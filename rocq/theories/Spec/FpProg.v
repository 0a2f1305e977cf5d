(** Straight-line programs over field objects: the "operation histories" of property C13.
    A program works on registers 0,1,2,..; each instruction overwrites its first register, as the Rust methods
    overwrite [self]. *)
From Verif Require Import Base.Word Model.Big Model.Roms Model.Fp Spec.BigSpec Spec.RomSpec Spec.FpSpec.

Inductive fop :=
  | FInt (d : nat) (k : Z)            (* d := FP::new_int(k) *)
  | FBig (d : nat) (x : list Z)       (* d := FP::new_big(x) *)
  | FCopy (d i : nat)                 (* d.copy(i) *)
  | FAdd (d i : nat)                  (* d.add(i) *)
  | FSub (d i : nat)                  (* d.sub(i) *)
  | FRsub (d i : nat)                 (* d.rsub(i) *)
  | FNeg (d : nat) | FDbl (d : nat)
  | FMul (d i : nat) | FSqr (d : nat)
  | FImul (d : nat) (k : Z)
  | FDiv2 (d : nat) | FNorm (d : nat) | FReduce (d : nat).

Definition upd {A} (s : nat -> A) (d : nat) (v : A) : nat -> A := fun j => if Nat.eqb j d then v else s j.

(** meaning in Z modulo p: plain integer arithmetic; halving multiplies by (p+1)/2 *)
Definition spec_step (r : rom) (o : fop) (s : nat -> Z) : nat -> Z :=
  match o with
  | FInt d k => upd s d k
  | FBig d x => upd s d (bval (r_cfg r) x)
  | FCopy d i => upd s d (s i)
  | FAdd d i => upd s d (s d + s i)
  | FSub d i => upd s d (s d - s i)
  | FRsub d i => upd s d (s i - s d)
  | FNeg d => upd s d (- s d)
  | FDbl d => upd s d (2 * s d)
  | FMul d i => upd s d (s d * s i)
  | FSqr d => upd s d (s d * s d)
  | FImul d k => upd s d (s d * k)
  | FDiv2 d => upd s d (s d * ((pmod r + 1) / 2))
  | FNorm _ | FReduce _ => s
  end.
Fixpoint spec_run (r : rom) (os : list fop) (s : nat -> Z) : nat -> Z :=
  match os with [] => s | o :: t => spec_run r t (spec_step r o s) end.

(** the code *)
Definition run_step (r : rom) (o : fop) (s : nat -> fp) : option (nat -> fp) :=
  match o with
  | FInt d k => f <- fp_new_int r k ;; Some (upd s d f)
  | FBig d x => f <- fp_new_big r x ;; Some (upd s d f)
  | FCopy d i => Some (upd s d (s i))
  | FAdd d i => f <- fp_add r (s d) (s i) ;; Some (upd s d f)
  | FSub d i => f <- fp_sub r (s d) (s i) ;; Some (upd s d f)
  | FRsub d i => f <- fp_rsub r (s d) (s i) ;; Some (upd s d f)
  | FNeg d => f <- fp_neg r (s d) ;; Some (upd s d f)
  | FDbl d => f <- fp_dbl r (s d) ;; Some (upd s d f)
  | FMul d i => f <- fp_mul r (s d) (s i) ;; Some (upd s d f)
  | FSqr d => f <- fp_sqr r (s d) ;; Some (upd s d f)
  | FImul d k => f <- fp_imul r (s d) k ;; Some (upd s d f)
  | FDiv2 d => f <- fp_div2 r (s d) ;; Some (upd s d f)
  | FNorm d => f <- fp_norm r (s d) ;; Some (upd s d f)
  | FReduce d => f <- fp_reduce r (s d) ;; Some (upd s d f)
  end.
Fixpoint run (r : rom) (os : list fop) (s : nat -> fp) : option (nat -> fp) :=
  match os with [] => Some s | o :: t => s1 <- run_step r o s ;; run r t s1 end.

(** The library's discipline ("normalise before multiplying, and after at most so many additions"), as a static check.
    The grade of a register counts the unnormalised additions behind it (1 = normalised). *)
Definition grade_step (r : rom) (o : fop) (g : nat -> Z) : option (nat -> Z) :=
  let lim d n := if n <=? maxg r then Some (upd g d n) else None in
  let one d := if g d =? 1 then Some g else None in
  match o with
  | FInt d k => if (0 <=? k) && (k <? 2 ^ BASEBITS (r_cfg r)) then Some (upd g d 1) else None
  | FBig d x => if Nat.eqb (length x) (NLEN (r_cfg r)) && forallb (fun y => (0 <=? y) && (y <? 2 ^ BASEBITS (r_cfg r))) x
                   && (negb (special r) || (bval (r_cfg r) x <? pmod r)) then Some (upd g d 1) else None
  | FCopy d i => Some (upd g d (g i))
  | FAdd d i => lim d (g d + g i)
  | FSub d i => lim d (g d + g i + 1)
  | FRsub d i => lim d (g d + g i + 1)
  | FNeg d => lim d (g d + 1)
  | FDbl d => lim d (2 * g d)
  | FMul d i => if (g d =? 1) && (g i =? 1) then Some g else None
  | FSqr d => one d
  | FImul d k => if (g d =? 1) && (Z.abs k <? 2 ^ BASEBITS (r_cfg r)) && (special r || (negb (k =? 0) && (FEXCESS r * Z.abs k <? 2 ^ 31)))
                 then Some g else None
  | FDiv2 d => one d
  | FNorm d | FReduce d => Some (upd g d 1)
  end.
Fixpoint grades (r : rom) (os : list fop) (g : nat -> Z) : option (nat -> Z) :=
  match os with [] => Some g | o :: t => g1 <- grade_step r o g ;; grades r t g1 end.
