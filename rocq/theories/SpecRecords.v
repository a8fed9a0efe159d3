(** * Specification of the wait records of the lock pool.

    Nothing here mentions the library's data structures.  A wait on an object begins, possibly obtains a
    record (there may be no memory for one), and ends; a notification asks which record, if any, the waiters
    of an object use. *)
From Coq Require Import ZArith List.
Import ListNotations.

Inductive wop : Type :=
| Begin (lock : nat) (addr : Z) (buffer_ok record_ok : bool)   (* the booleans: would the allocator succeed *)
| End (lock : nat) (addr : Z) (r : nat)                        (* the wait that obtained [r] ends *)
| Notify (lock : nat) (addr : Z)
| Exit.                                                        (* the process runs its registered exit handlers *)
Inductive wres : Type :=
| Obtained (r : option nat)                                    (* None: no memory *)
| Found (r : option nat)
| Nothing.

(** waits in progress that have a record: lock, address of the object, record *)
Definition waits : Type := list (nat * Z * nat).

(** removing one occurrence *)
Inductive minus (x : nat * Z * nat) : waits -> waits -> Prop :=
| minus_here l : minus x (x :: l) l
| minus_there y l l' : minus x l l' -> minus x (y :: l) (y :: l').

(** how the waits in progress change *)
Inductive waits_step : waits -> wop -> wres -> waits -> Prop :=
| ws_begin w i a bo ro r : waits_step w (Begin i a bo ro) (Obtained (Some r)) ((i, a, r) :: w)
| ws_begin_fail w i a bo ro : waits_step w (Begin i a bo ro) (Obtained None) w
| ws_end w i a r w' : minus (i, a, r) w w' -> waits_step w (End i a r) Nothing w'
| ws_notify w i a r : waits_step w (Notify i a) (Found r) w
| ws_exit w : waits_step w Exit Nothing w.

(** an operation may be called: only a wait in progress ends, only locks of the pool are used *)
Definition allowed (n : nat) (w : waits) (o : wop) : Prop :=
  match o with
  | Begin i _ _ _ | Notify i _ => (i < n)%nat
  | End i a r => In (i, a, r) w
  | Exit => True
  end.

(** an operation for which the allocator does not fail *)
Definition memory_ok (o : wop) : Prop :=
  match o with Begin _ _ bo ro => bo = true /\ ro = true | _ => True end.
