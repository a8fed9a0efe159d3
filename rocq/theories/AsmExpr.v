(** * Arithmetic of registers.

    The right-hand sides of the instructions of AsmModel.v: arithmetic on register contents, which are integers, and
    conditions on flags.  This file models no file of /repo; it is the part of an instruction set that computes. *)
From Coq Require Import ZArith Bool.
From Verif Require Import Conv SpecInt.
Open Scope Z_scope.

(** [EV n] is register [n] and [CV n] is flag [n]. *)
Inductive expr :=
| EV (n : nat)
| EC (z : Z)
| EBin (b : binop) (x y : expr)
| EUn (u : unop) (x : expr)
| ELow (k : Z) (x : expr)        (* the low k bits *)
| ESx (k : Z) (x : expr)         (* the low k bits as a signed number *)
| EIns (k : Z) (x y : expr)      (* x with its low k bits replaced by those of y *)
| EHi (k : Z) (x : expr)         (* x without its low k bits *)
| EJoin (k : Z) (x y : expr)     (* the low k bits of x below y *)
| EB (c : cnd)                   (* 1 or 0 *)
| EPow (x : expr)                (* 2 to the power x *)
with cnd :=
| CT | CF
| CV (n : nat)
| CEq (k : Z) (x y : expr)       (* the low k bits are the same *)
| CLt (k : Z) (x y : expr)       (* unsigned comparison of the low k bits: the borrow of a subtraction *)
| CCar (k : Z) (x y : expr)      (* the carry of an addition of k bits *)
| CBit (x y : expr)              (* bit number y of x *)
| CNot (c : cnd)
| CAnd (c d : cnd).

Section Eval.
  Variables (rho : nat -> Z) (phi : nat -> bool).
  Fixpoint eval (e : expr) : Z :=
    match e with
    | EV n => rho n
    | EC z => z
    | EBin b x y => bin_apply b (eval x) (eval y)
    | EUn u x => un_apply u (eval x)
    | ELow k x => wrap k (eval x)
    | ESx k x => sval k (wrap k (eval x))
    | EIns k x y => eval x - wrap k (eval x) + wrap k (eval y)
    | EHi k x => eval x / 2 ^ k
    | EJoin k x y => wrap k (eval x) + 2 ^ k * eval y
    | EB c => if ceval c then 1 else 0
    | EPow x => 2 ^ eval x
    end
  with ceval (c : cnd) : bool :=
    match c with
    | CT => true
    | CF => false
    | CV n => phi n
    | CEq k x y => wrap k (eval x) =? wrap k (eval y)
    | CLt k x y => wrap k (eval x) <? wrap k (eval y)
    | CCar k x y => 2 ^ k <=? wrap k (eval x) + wrap k (eval y)
    | CBit x y => Z.testbit (eval x) (eval y)
    | CNot c => negb (ceval c)
    | CAnd c d => ceval c && ceval d
    end.
End Eval.
