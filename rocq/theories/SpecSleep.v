(** * Vocabulary for sleeping, waking and exclusion.

    What the theorems of PropSleep say about a run, in terms of the machine of PoolModel (its memory, its sleeping
    threads, its clock) and of the history of calls; nothing here is part of the library or of the proofs. *)
From Coq Require Import ZArith List Bool.
From Verif Require Import SpecLin SpecBytes SpecPool Prog PoolModel.
Import ListNotations.
Open Scope Z_scope.

(** ** Single states *)
(** the number the storage of object [a] represents *)
Definition value_of (D : nat -> odesc) (m : pmem) (a : nat) : Z :=
  if d_locked (D a) then number (d_be (D a)) (bytes_at (byt m) (d_addr (D a)) (d_size (D a))) else cel m a.
(** nobody is in the middle of changing object [a] *)
Definition at_rest (pl : platform) (D : nat -> odesc) (m : pmem) (a : nat) : Prop :=
  d_locked (D a) = true -> own m (lock_of pl (D a)) = None.
(** the lock under which an action touches data that only the holder of the lock may touch *)
Definition guard (a : pact) : option nat :=
  match a with
  | BRd i _ | BWr i _ _ | WcGet i _ | WcSet i _ _ | WlBegin i _ | WlEnd i _ | WlFind i _ | WlCleanup i => Some i
  | _ => None
  end.
(** thread [t] sleeps in a wait, not for a lock *)
Definition sleeps_in_wait (m : pmem) (t : nat) : Prop := exists f, In (t, f) (slp m) /\ forall i, f <> FM i.
Definition sleeps_for_lock (m : pmem) (i t : nat) : Prop := In (t, FM i) (slp m).
(** the futex words count at most this much: fewer than 2^30 releases of one lock, fewer than 2^32 notifications of one
    wait record *)
Definition counters_ok (pl : platform) (m : pmem) : Prop :=
  pl_lock pl = LFutex -> (forall i, unl m i < 2 ^ 30) /\ forall i k, ntf m i k < 2 ^ 32.

Section Run.
  Variable pl : platform.
  Context {C R : Type}.
  Variable impl : nat * C -> pprog R.
  Notation conf := (config pact presp pmem (nat * C) R).
  Notation exec := (pexec (pl_search pl) (pl_init pl)).

  Definition next (c : conf) (t : nat) (a : pact) : Prop := exists o k, c_thr c t = Run o (Do a k).
  Definition running (c : conf) (t : nat) (o : nat * C) : Prop := exists p, c_thr c t = Run o p.
  (** thread [t] cannot make action [a], unless the system interrupts its sleep for no reason *)
  Definition blocked (t : nat) (a : pact) (m : pmem) : Prop := forall w, f_spur w = false -> exec t a m w = None.
  (** no thread can make a step any more *)
  Definition stuck (c : conf) : Prop :=
    forall t o p, c_thr c t = Run o p -> exists a k, p = Do a k /\ blocked t a (c_mem c).
  (** [P] holds in every state of the run [l] from [c] *)
  Definition throughout (c : conf) (l : list (sched fate (nat * C))) (P : conf -> Prop) : Prop :=
    forall l1 l2, l = l1 ++ l2 -> P (fst (run exec impl c l1)).
End Run.

Definition is_wait (c : tcall) : bool := match c with TWait _ | TTimed _ _ _ => true | _ => false end.
(** at most one thread at a time is in a wait on object [a] *)
Definition lone_waiter {R} (a : nat) (c : config pact presp pmem (nat * tcall) R) : Prop :=
  forall t u x y, running c t (a, x) -> running c u (a, y) -> is_wait x = true -> is_wait y = true -> t = u.
(** no step of the schedule gets memory for a buffer of wait records *)
Definition no_memory {op} (l : list (sched fate op)) : Prop := forall t w, In (SStep t w) l -> f_buf w = false.

(** some thread makes the call [o] and gets an answer *)
Definition returned {op ret} (h : list (event op ret)) (o : op) : Prop :=
  exists h1 t h2 r h3, h = h1 ++ EInv t o :: h2 ++ ERes t r :: h3.

(** the number of steps thread [t] makes *)
Definition own_steps {op} (t : nat) (l : list (sched fate op)) : nat :=
  length (filter (fun e => match e with SStep u _ => Nat.eqb u t | _ => false end) l).
