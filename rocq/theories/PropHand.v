(** * C56: calls on lock-based objects order the memory accesses of their callers. *)
From Coq Require Import ZArith Arith List Bool.
From Verif Require Import SpecInt SpecPool Order Reorder SpecOrder FenceModel SpecFence SpecLock Prog PoolModel SpecHand
  HandFlat HandProof HandThread HandExample.
Import ListNotations.
Open Scope nat_scope.

(** A call sees another: an access of the first to a byte of a lock-based object takes effect before an access of the
    second to a byte of one with the same lock.  Then everything the first thread did before its call takes effect
    before everything the second does after its own.  The calls may have any memory order; they may be
    unfinished; the objects may be of any size, and different; the threads may do anything else. *)
Theorem C56_seen_calls_ordered : forall b m pl D l i threads place time val,
  execution_of b m pl D l i threads place time val ->
  forall t n k x tr r a u n' k' x' tr' r' a',
    call_at threads t n k x tr r -> byte_access i k tr a ->
    call_at threads u n' k' x' tr' r' -> byte_access i k' tr' a' -> (t, n) <> (u, n') ->
    time t a < time u a' -> ordered threads time t k u k' tr'.
Proof. exact bytes_ordered. Qed.
Print Assumptions C56_seen_calls_ordered.

(** In particular when it reads what the first wrote. *)
Theorem C56_reads_from : forall b m pl D l i threads place time val,
  execution_of b m pl D l i threads place time val ->
  forall z t n k x tr r a u n' k' x' tr' r' a',
    call_at threads t n k x tr r -> byte_access i k tr a ->
    call_at threads u n' k' x' tr' r' -> byte_access i k' tr' a' -> (t, n) <> (u, n') ->
    gets (fun t => code_of (threads t)) time z (time u a') (Some (t, a)) -> ordered threads time t k u k' tr'.
Proof.
  exact (fun b m pl D l i threads place time val E z t n k x tr r a u n' k' x' tr' r' a' C A C' A' N G =>
    bytes_ordered b m pl D l i threads place time val E t n k x tr r a u n' k' x' tr' r' a' C A C' A' N (proj1 (proj2 G))).
Qed.
Print Assumptions C56_reads_from.

(** Of two complete calls that use the same lock, one is ordered before the other: also notifications, and fences that
    the lock pool implements. *)
Theorem C56_calls_ordered : forall b m pl D l i threads place time val,
  execution_of b m pl D l i threads place time val ->
  forall t n k x tr r u n' k' x' tr' r',
    call_at threads t n k x tr (Some r) -> uses pl D i x ->
    call_at threads u n' k' x' tr' (Some r') -> uses pl D i x' -> (t, n) <> (u, n') ->
    ordered threads time t k u k' tr' \/ ordered threads time u k' t k tr.
Proof. exact calls_ordered. Qed.
Print Assumptions C56_calls_ordered.

(** The accesses of two operations to the bytes of lock-based objects with one lock are not interleaved: as soon as one
    access of the first takes effect before one of the second, all do.  So each operation is indivisible however
    compiler and processor reorder its accesses. *)
Theorem C56_operations_indivisible : forall b m pl D l i threads place time val,
  execution_of b m pl D l i threads place time val ->
  forall t n k x tr r a a1 u n' k' x' tr' r' a' a1',
    call_at threads t n k x tr r -> one_section D x -> byte_access i k tr a -> byte_access i k tr a1 ->
    call_at threads u n' k' x' tr' r' -> one_section D x' -> byte_access i k' tr' a' -> byte_access i k' tr' a1' ->
    (t, n) <> (u, n') -> time t a < time u a' -> time t a1 < time u a1'.
Proof. exact bytes_together. Qed.
Print Assumptions C56_operations_indivisible.

(** [path] leaves out nothing that the machine of Prog.v can do. *)
Theorem C56_paths_cover_runs : forall t (pl : platform) l (p : pprog aret) tr q,
  machine_run (pexec (pl_search pl) (pl_init pl)) t p l = (tr, q) -> path p tr None /\ forall r, q = Ret r -> path p tr (Some r).
Proof. exact (fun t pl => machine_paths (pexec (pl_search pl) (pl_init pl)) t). Qed.
Print Assumptions C56_paths_cover_runs.

(** *** The hypotheses are met *)

(** On Arm: thread 0 writes a variable and stores 5 in a lock-based object; thread 1 finds the lock held, waits for it,
    loads the 5 and reads the variable. *)
Example C56_applies :
  execution_of Arm Weak h_pl h_objects 0 0 h_threads h_place h_time h_val /\
  call_at h_threads 0 1 1 (0, AData (Store 5)) h_store (Some (RI RUnit)) /\ byte_access 0 1 h_store 5 /\
  call_at h_threads 1 0 0 (0, AData Load) h_load (Some (RI (RVal 5))) /\ byte_access 0 0 h_load 6 /\
  gets (fun t => code_of (h_threads t)) h_time 1 (h_time 1 6) (Some (0, 5)) /\
  uses h_pl h_objects 0 (0, AData (Store 5)) /\ one_section h_objects (0, AData Load).
Proof. exact h_applies. Qed.
(** so the variable is written before it is read *)
Example C56_example : h_time 0 0 < h_time 1 11.
Proof.
  destruct C56_applies as (E & C & A & C' & A' & G & _).
  apply (C56_reads_from _ _ _ _ _ _ _ _ _ _ E _ _ _ _ _ _ _ _ _ _ _ _ _ _ _ C A C' A' ltac:(discriminate) G).
  - eexists. reflexivity.
  - repeat constructor.
  - eexists. reflexivity.
  - apply le_n.
Qed.
