(** * Reading histories.

    Vocabulary for stating consequences of linearizability: the calls that have
    returned in a history, and what it means to execute calls one at a time. *)
From Coq Require Import List.
From Verif Require Import SpecLin.
Import ListNotations.

Section Hist.
  Context {op ret state : Type}.

  (** The calls of [h] that have returned, as (thread, operation, result), in the
      order of their returns.  [p t] is the call thread [t] is executing. *)
  Fixpoint completed_from (p : nat -> option op) (h : list (event op ret)) : list (nat * op * ret) :=
    match h with
    | [] => []
    | EInv t o :: h => completed_from (tset p t (Some o)) h
    | ERes t r :: h =>
        match p t with
        | Some o => (t, o, r) :: completed_from (tset p t None) h
        | None => completed_from p h
        end
    end.
  Definition completed (h : list (event op ret)) : list (nat * op * ret) :=
    completed_from (fun _ => None) h.

  (** The calls of the list executed one after the other by the sequential object. *)
  Inductive steps (spec : state -> op -> ret -> state -> Prop) : state -> list (nat * op * ret) -> state -> Prop :=
  | st_nil s : steps spec s [] s
  | st_cons s t o r s1 l s2 : spec s o r s1 -> steps spec s1 l s2 -> steps spec s ((t, o, r) :: l) s2.
End Hist.

(** The calls on one object of a collection. *)
Definition calls_on {op ret : Type} (a : nat) (l : list (nat * (nat * op) * ret)) : list (nat * op * ret) :=
  flat_map (fun c => match c with (t, (b, o), r) => if Nat.eqb b a then [(t, o, r)] else [] end) l.

(** The calls invoked in a history. *)
Definition invoked {op ret : Type} (h : list (event op ret)) : list (nat * op) :=
  flat_map (fun e => match e with EInv t o => [(t, o)] | ERes _ _ => [] end) h.

(** Those on one object of a collection. *)
Definition invoked_on {op ret : Type} (a : nat) (h : list (event (nat * op) ret)) : list (nat * op) :=
  flat_map (fun c => match c with (t, (b, o)) => if Nat.eqb b a then [(t, o)] else [] end) (invoked h).
