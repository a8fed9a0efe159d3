(** * C51: a lock made of an atomic object protects ordinary data. *)
From Coq Require Import Arith List Bool.
Require Import Verif.Order Verif.Reorder Verif.SpecOrder Verif.FenceModel Verif.SpecFence
  Verif.FenceProof Verif.SpecLock Verif.LockProof.
Import ListNotations.
Open Scope nat_scope.

(** Any number of threads, with any code, any number of sections, vain attempts
    and other changes of the lock word each, on the processor of any back end.  Of two sections, one
    comes first: all that its thread did until its end is done before anything
    that the other's thread does from its beginning.  Missing: SPARC with a lock
    operation that is not seq_cst, where this is false. *)
Theorem C51_critical_sections_partial : forall b l threads place time leaves,
  together (machine_of b) (fun t => code_of b l (threads t)) place time ->
  used_as_lock b l threads time leaves ->
  (b = Sparc -> forall t k p body q, section_at b l threads t k p body q ->
    read_order p = Some SeqCst) ->
  forall t k p body q u k' p' body' q',
    section_at b l threads t k p body q -> section_at b l threads u k' p' body' q' ->
    (t, k) <> (u, k') ->
    handed_over b l threads time t k p body u k' p' \/
    handed_over b l threads time u k' p' body' t k p.
Proof. exact sections_serial_backends. Qed.
Print Assumptions C51_critical_sections_partial.

(** In particular their bodies do not overlap. *)
Theorem C51_bodies_partial : forall b l threads place time leaves,
  together (machine_of b) (fun t => code_of b l (threads t)) place time ->
  used_as_lock b l threads time leaves ->
  (b = Sparc -> forall t k p body q, section_at b l threads t k p body q ->
    read_order p = Some SeqCst) ->
  forall t k p body q u k' p' body' q',
    section_at b l threads t k p body q -> section_at b l threads u k' p' body' q' ->
    (t, k) <> (u, k') ->
    (forall i j, is_access body i -> is_access body' j ->
      time t (k + length (emit b l p) + i) < time u (k' + length (emit b l p') + j)) \/
    (forall i j, is_access body i -> is_access body' j ->
      time u (k' + length (emit b l p') + j) < time t (k + length (emit b l p) + i)).
Proof. exact bodies_serial. Qed.
Print Assumptions C51_bodies_partial.

(** On a SPARC in total store order mode any acquire order will do. *)
Theorem C51_sparc_total_store_order : forall l threads place time leaves,
  together TSO (fun t => code_of Sparc l (threads t)) place time ->
  used_as_lock Sparc l threads time leaves ->
  forall t k p body q u k' p' body' q',
    section_at Sparc l threads t k p body q -> section_at Sparc l threads u k' p' body' q' ->
    (t, k) <> (u, k') ->
    handed_over Sparc l threads time t k p body u k' p' \/
    handed_over Sparc l threads time u k' p' body' t k p.
Proof. exact sections_serial_sparc_tso. Qed.
Print Assumptions C51_sparc_total_store_order.

(** On a SPARC that reorders reads the bodies of two sections may overlap: one
    thread reads two variables in its section, the other writes both in its,
    and the first sees the old value of one and the new value of the other. *)
Theorem C51_sparc_refuted : exists l threads place time leaves,
  together (machine_of Sparc) (fun t => code_of Sparc l (threads t)) place time /\
  used_as_lock Sparc l threads time leaves /\
  exists t k p body q u k' p' body' q' i i' j j',
    section_at Sparc l threads t k p body q /\ section_at Sparc l threads u k' p' body' q' /\
    t <> u /\
    is_access body i /\ is_access body i' /\ is_access body' j /\ is_access body' j' /\
    time t (k + length (emit Sparc l p) + i) < time u (k' + length (emit Sparc l p') + j) /\
    time u (k' + length (emit Sparc l p') + j') < time t (k + length (emit Sparc l p) + i').
Proof. exact sparc_sections_refuted. Qed.
Print Assumptions C51_sparc_refuted.

(** *** The hypotheses are met *)

(** On Arm: a thread in its section, another that tries in vain meanwhile and
    then gets the lock. *)
Example C51_applies :
  together (machine_of Arm) (fun t => code_of Arm 0 (spin_threads t)) spin_place spin_time /\
  used_as_lock Arm 0 spin_threads spin_time spin_leaves /\
  section_at Arm 0 spin_threads 0 0 (OTestAndSet 0 Acquire)
    [Access (plain_read 1); Access (plain_write 1)] (OClear 0 Release) /\
  section_at Arm 0 spin_threads 1 3 (OTestAndSet 0 Acquire)
    [Access (plain_read 1); Access (plain_write 1)] (OClear 0 Release).
Proof.
  split; [exact spin_together|]. split; [exact spin_used|].
  split; [exists [], []|exists [Attempt (OTestAndSet 0 Acquire)], []];
    split; reflexivity.
Qed.
