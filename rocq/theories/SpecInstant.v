(** * Instants of a history.

    Vocabulary for "at an instant during the call": one linearization of the whole history is cut in two, and
    [s] is the state of the object between the two parts. *)
From Coq Require Import List.
From Verif Require Import SpecLin.
Import ListNotations.

Section Instant.
  Context {op ret state : Type}.
  Variable spec : state -> op -> ret -> state -> Prop.

  (** after the part [h1] of the history [h1 ++ h2], the object is in state [s] *)
  Definition at_instant (s0 : state) (h1 h2 : list (event op ret)) (s : state) : Prop :=
    exists l1 l2 th s' th', lrun spec s0 (fun _ => PIdle) l1 s th /\ lrun spec s th l2 s' th' /\
      SpecLin.erase l1 = h1 /\ SpecLin.erase l2 = h2.

  Definition of_thread (t : nat) (e : event op ret) : Prop :=
    match e with EInv u _ | ERes u _ => u = t end.
  (** thread [t] makes the call [c] after [h1] and gets the answer [r] after a further [h2] *)
  Definition answered (h h1 : list (event op ret)) (t : nat) (c : op) (h2 : list (event op ret)) (r : ret) (h3 : list (event op ret)) : Prop :=
    h = h1 ++ EInv t c :: h2 ++ ERes t r :: h3 /\ forall e, In e h2 -> ~ of_thread t e.
  (** the object is in state [s] at an instant of that call *)
  Definition during (s0 : state) (h1 : list (event op ret)) (t : nat) (c : op) (h2 : list (event op ret)) (r : ret)
    (h3 : list (event op ret)) (s : state) : Prop :=
    exists h2a h2b, h2 = h2a ++ h2b /\ at_instant s0 (h1 ++ EInv t c :: h2a) (h2b ++ ERes t r :: h3) s.
End Instant.
