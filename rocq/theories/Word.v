(** * The word machine.

    Shared memory as the lock-free back ends see it: one word per atomic
    object, and the indivisible actions the back ends are written with.
    Addresses are numbers; two objects never overlap.  Memory orders are not
    part of this machine (see MemOrder.v and Tso.v): its actions happen one
    after the other, in the order of the schedule. *)
From Coq Require Import ZArith List Bool.
From Verif Require Import SpecInt SpecLin Conv Prog.
Open Scope Z_scope.

(** A word and the number of writes it has received.  The count is not visible
    to programs except as the reservation of a load-linked. *)
Record cell := mkcell { val : Z; ver : Z }.

Definition addr := nat.
Definition wmem := addr -> cell.

Definition put (m : wmem) (a : addr) (v : Z) : wmem :=
  fun b => if Nat.eqb b a then mkcell v (ver (m a) + 1) else m b.

(** Nondeterminism of one step: [lucky] says that a store-conditional or weak
    compare-and-swap does not fail spuriously; [junk] is what a racing
    non-atomic read returns. *)
Record luck := mkluck { lucky : bool; junk : Z }.

(** Low and high half of a [w]-bit word, and the word built from two halves. *)
Definition half (w : Z) (hi : bool) (x : Z) : Z :=
  if hi then wrap (w / 2) (x / 2 ^ (w / 2)) else wrap (w / 2) x.
Definition join (w lo hi : Z) : Z := lo + 2 ^ (w / 2) * hi.

Inductive wact :=
| ALoad (a : addr)                    (* single-copy atomic load *)
| ARacy (a : addr) (w : Z)            (* plain C++ read racing with writers: any value of [w] bits *)
| AHalf (a : addr) (w : Z) (hi : bool)(* atomic load of one half of a [w]-bit word *)
| AStore (a : addr) (v : Z)
| AXchg (a : addr) (v : Z)
| ARmw (a : addr) (w : Z) (e : effect)(* one-instruction read-modify-write on [w] bits *)
| ACas (a : addr) (e d : Z)           (* strong compare-and-swap, answers success and the word found *)
| ACasW (a : addr) (e d : Z)          (* the same, may fail spuriously *)
| AKCas (a : addr) (e d : Z)          (* the same, answers success only *)
| ALL (a : addr)                      (* load-linked: word and reservation *)
| ALLHalf (a : addr) (w : Z) (hi : bool) (* half of a load-linked pair, with reservation *)
| ASC (a : addr) (tok v : Z).         (* store-conditional *)

Definition wresp (a : wact) : Type :=
  match a with
  | ALoad _ | ARacy _ _ | AHalf _ _ _ | AXchg _ _ | ARmw _ _ _ => Z
  | AStore _ _ => unit
  | ACas _ _ _ | ACasW _ _ _ => (bool * Z)%type
  | AKCas _ _ _ | ASC _ _ _ => bool
  | ALL _ | ALLHalf _ _ _ => (Z * Z)%type
  end.

Definition wexec (t : nat) (a : wact) (m : wmem) (w : luck) : option (wmem * wresp a) :=
  match a return option (wmem * wresp a) with
  | ALoad a => Some (m, val (m a))
  | ARacy a n => Some (m, wrap n (junk w))
  | AHalf a n hi => Some (m, half n hi (val (m a)))
  | AStore a v => Some (put m a v, tt)
  | AXchg a v => Some (put m a v, val (m a))
  | ARmw a n e => Some (put m a (wrap n (eff_apply e (val (m a)))), val (m a))
  | ACas a e d =>
      if val (m a) =? e then Some (put m a d, (true, val (m a))) else Some (m, (false, val (m a)))
  | ACasW a e d =>
      if (val (m a) =? e) && lucky w
      then Some (put m a d, (true, val (m a))) else Some (m, (false, val (m a)))
  | AKCas a e d =>
      if (val (m a) =? e) && lucky w then Some (put m a d, true) else Some (m, false)
  | ALL a => Some (m, (val (m a), ver (m a)))
  | ALLHalf a n hi => Some (m, (half n hi (val (m a)), ver (m a)))
  | ASC a tok v =>
      if (ver (m a) =? tok) && lucky w then Some (put m a v, true) else Some (m, false)
  end.

Notation wprog := (prog wact wresp).

(** The actions as one-step programs. *)
Definition ld (a : addr) : wprog Z := do (ALoad a).
Definition racy (a : addr) (w : Z) : wprog Z := do (ARacy a w).
Definition ldhalf (a : addr) (w : Z) (hi : bool) : wprog Z := do (AHalf a w hi).
Definition st (a : addr) (v : Z) : wprog unit := do (AStore a v).
Definition xchg (a : addr) (v : Z) : wprog Z := do (AXchg a v).
Definition rmw (a : addr) (w : Z) (e : effect) : wprog Z := do (ARmw a w e).
Definition cas (a : addr) (e d : Z) : wprog (bool * Z) := do (ACas a e d).
Definition casw (a : addr) (e d : Z) : wprog (bool * Z) := do (ACasW a e d).
Definition kcas (a : addr) (e d : Z) : wprog bool := do (AKCas a e d).
Definition ll (a : addr) : wprog (Z * Z) := do (ALL a).
Definition llhalf (a : addr) (w : Z) (hi : bool) : wprog (Z * Z) := do (ALLHalf a w hi).
Definition sc (a : addr) (tok v : Z) : wprog bool := do (ASC a tok v).
