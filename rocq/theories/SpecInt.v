(** * Specification of integer objects.

    Nothing here mentions the library: this is ordinary two's complement
    arithmetic on mathematical integers, and the sequential meaning of the
    calls of an integer atomic.  Properties are stated against this file. *)
From Coq Require Import ZArith Bool.
Open Scope Z_scope.

(** [rng sg n x]: [x] is a value of the [n]-bit integer type (signed iff [sg]). *)
Definition rng (sg : bool) (n x : Z) : Prop :=
  if sg then - 2 ^ (n - 1) <= x < 2 ^ (n - 1) else 0 <= x < 2 ^ n.

(** [norm sg n x]: the value of that type congruent to [x] modulo [2^n]. *)
Definition norm (sg : bool) (n x : Z) : Z :=
  if sg then (x + 2 ^ (n - 1)) mod 2 ^ n - 2 ^ (n - 1) else x mod 2 ^ n.

Inductive binop := Add | Sub | And | Or | Xor.
Inductive unop := Neg | Not.
Inductive bitop := BSet | BReset | BCompl.

Definition bin_apply (b : binop) (x v : Z) : Z :=
  match b with
  | Add => x + v
  | Sub => x - v
  | And => Z.land x v
  | Or => Z.lor x v
  | Xor => Z.lxor x v
  end.

Definition un_apply (u : unop) (x : Z) : Z :=
  match u with Neg => - x | Not => Z.lnot x end.

Definition bit_apply (k : bitop) (x i : Z) : Z :=
  match k with
  | BSet => Z.setbit x i
  | BReset => Z.clearbit x i
  | BCompl => Z.lxor x (2 ^ i)
  end.

(** The way a read-modify-write call reports: previous value, new value,
    nothing, or "is the new value non-zero". *)
Inductive form := Fetch | Result | Opaque | Test.

(** A read-modify-write effect: a binary operator with its operand or a unary one. *)
Inductive effect := Bin (b : binop) (v : Z) | Un (u : unop).

Definition eff_apply (e : effect) (x : Z) : Z :=
  match e with Bin b v => bin_apply b x v | Un u => un_apply u x end.

Inductive iop :=
| Store (v : Z)
| Load
| Exchange (v : Z)
| CasStrong (expected desired : Z)
| CasWeak (expected desired : Z)
| Rmw (f : form) (e : effect)
| BitTest (k : bitop) (i : Z).

Inductive iret :=
| RUnit
| RVal (v : Z)
| RBool (b : bool)
| RCas (b : bool) (expected : Z).

Definition report (f : form) (old new : Z) : iret :=
  match f with
  | Fetch => RVal old
  | Result => RVal new
  | Opaque => RUnit
  | Test => RBool (negb (new =? 0))
  end.

(** Sequential meaning of one call on an object of the [n]-bit type:
    [istep sg n x o r x'] - in state [x], call [o] may return [r] and leave [x']. *)
Inductive istep (sg : bool) (n : Z) : Z -> iop -> iret -> Z -> Prop :=
| is_store x v : istep sg n x (Store v) RUnit v
| is_load x : istep sg n x Load (RVal x) x
| is_exchange x v : istep sg n x (Exchange v) (RVal x) v
| is_cas_ok x d : istep sg n x (CasStrong x d) (RCas true x) d
| is_cas_fail x e d : x <> e -> istep sg n x (CasStrong e d) (RCas false x) x
| is_casw_ok x d : istep sg n x (CasWeak x d) (RCas true x) d
| is_casw_fail x e d : istep sg n x (CasWeak e d) (RCas false x) x
| is_rmw x f e : istep sg n x (Rmw f e) (report f x (norm sg n (eff_apply e x)))
                       (norm sg n (eff_apply e x))
| is_bit x k i : istep sg n x (BitTest k i) (RBool (Z.testbit x i))
                       (norm sg n (bit_apply k x i)).

(** Arguments a caller may legally pass. *)
Definition iop_ok (sg : bool) (n : Z) (o : iop) : Prop :=
  match o with
  | Store v | Exchange v => rng sg n v
  | Load => True
  | CasStrong e d | CasWeak e d => rng sg n e /\ rng sg n d
  | Rmw _ (Bin _ v) => rng sg n v
  | Rmw _ (Un _) => True
  | BitTest _ i => 0 <= i < n
  end.
