(** * Vocabulary for statements about whole histories of integer calls. *)
From Coq Require Import ZArith List Bool.
From Verif Require Import SpecInt Order.
Import ListNotations.
Open Scope Z_scope.

Notation icalls := (list (nat * (morder * iop) * iret)).

(** What a call adds to the object, when it is an addition, subtraction or load in any form. *)
Definition delta (o : iop) : option Z :=
  match o with
  | Rmw _ (Bin Add k) => Some k
  | Rmw _ (Bin Sub k) => Some (- k)
  | Load => Some 0
  | _ => None
  end.

Fixpoint total (l : icalls) : Z :=
  match l with
  | [] => 0
  | (_, (_, o), _) :: l => (match delta o with Some k => k | None => 0 end) + total l
  end.

(** The number of calls in the list that satisfy a test. *)
Definition count (f : iop -> iret -> bool) (l : icalls) : nat :=
  length (filter (fun c => match c with (_, (_, o), r) => f o r end) l).

Definition sets_bit (i : Z) (o : iop) : bool := match o with BitTest BSet j => i =? j | _ => false end.
Definition succeeded (r : iret) : bool := match r with RCas b _ => b | RBool b => b | _ => false end.

(** The calls of the C++ standard's interface. *)
Definition core_call (o : iop) : bool :=
  match o with
  | Store _ | Load | Exchange _ | CasStrong _ _ | CasWeak _ _ | Rmw Fetch (Bin _ _) => true
  | _ => false
  end.
