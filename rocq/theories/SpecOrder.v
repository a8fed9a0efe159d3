(** * What a memory order asks of an operation or a fence (C38-C41). *)
From Coq Require Import ZArith Arith List Bool.
Require Import Verif.Order Verif.Reorder.
Import ListNotations.
Open Scope nat_scope.

(** ** Orders *)

(** The orders with which a read is an acquire.  [memory_order_consume] is
    asked to be as good as acquire, as the library's documentation promises. *)
Definition acquiring (o : morder) : Prop :=
  match o with Consume | Acquire | AcqRel | SeqCst => True | _ => False end.

(** The orders with which a write is a release. *)
Definition releasing (o : morder) : Prop :=
  match o with Release | AcqRel | SeqCst => True | _ => False end.

(** [weaker a b]: an operation of order [b] gives all the guarantees of an
    operation of order [a] (the order of the C++ standard: relaxed below
    everything, consume below acquire, acquire and release below acq_rel,
    seq_cst above everything; acquire and release are not comparable). *)
Inductive weaker : morder -> morder -> Prop :=
| weaker_same o : weaker o o
| weaker_relaxed o : weaker Relaxed o
| weaker_consume o : o = Acquire \/ o = AcqRel -> weaker Consume o
| weaker_acquire : weaker Acquire AcqRel
| weaker_release : weaker Release AcqRel
| weaker_seq_cst o : weaker o SeqCst.

(** The orders a failed compare_exchange may have. *)
Definition failure_order (o : morder) : Prop := o <> Release /\ o <> AcqRel.

(** ** Operations, by the machine code they consist of *)

(** The accesses of [code] of kind [k] are those that make up the operation:
    a load is its reads, a store its writes, a read-modify-write both. *)
Definition accesses_of (code : list item) (k : kind) (r : nat) : Prop :=
  exists x, nth_error code r = Some (Access x) /\ a_kind x = k.

Definition is_access (p : list item) (i : nat) : Prop :=
  exists x, nth_error p i = Some (Access x).

(** No access that follows the operation takes effect before its reads,
    whatever stands before and after it and however it is executed. *)
Definition acquire_operation (m : machine) (code : list item) : Prop :=
  forall pre post place time,
    execution m (pre ++ code ++ post) place time ->
    forall r j, accesses_of code Rd r -> is_access post j ->
      time (length pre + r) < time (length pre + length code + j).

(** No access that precedes the operation takes effect after its writes. *)
Definition release_operation (m : machine) (code : list item) : Prop :=
  forall pre post place time,
    execution m (pre ++ code ++ post) place time ->
    forall i w, is_access pre i -> accesses_of code Wr w ->
      time i < time (length pre + w).

(** Two operations of one thread take effect in the order they are written:
    every access of kind in [k1] of the first before every access of kind in
    [k2] of the second. *)
Definition in_order (m : machine) (code1 : list item) (k1 : kind -> Prop)
    (code2 : list item) (k2 : kind -> Prop) : Prop :=
  forall pre mid post place time,
    execution m (pre ++ code1 ++ mid ++ code2 ++ post) place time ->
    forall a b ka kb, k1 ka -> k2 kb -> accesses_of code1 ka a -> accesses_of code2 kb b ->
      time (length pre + a) < time (length pre + length code1 + length mid + b).

(** ** Fences *)

(** Every access of kind in [k1] before the fence takes effect before every
    access of kind in [k2] after it. *)
Definition fence_keeps (m : machine) (code : list item) (k1 k2 : kind -> Prop) : Prop :=
  forall pre post place time,
    execution m (pre ++ code ++ post) place time ->
    forall i j k k', k1 k -> k2 k' -> accesses_of pre k i -> accesses_of post k' j ->
      time i < time (length pre + length code + j).

Definition reads (k : kind) : Prop := k = Rd.
Definition writes (k : kind) : Prop := k = Wr.
Definition anything (k : kind) : Prop := True.

(** An acquire fence keeps earlier reads before later accesses, a release fence
    keeps earlier accesses before later writes, a seq_cst fence keeps
    everything. *)
Definition fence_of_order (m : machine) (code : list item) (o : morder) : Prop :=
  (acquiring o -> fence_keeps m code reads anything) /\
  (releasing o -> fence_keeps m code anything writes) /\
  (o = SeqCst -> fence_keeps m code anything anything).

(** A signal fence keeps the order of the machine code. *)
Definition signal_fence_keeps (m : machine) (code : list item) : Prop :=
  forall pre post place time,
    execution m (pre ++ code ++ post) place time ->
    forall i j, is_access pre i -> is_access post j ->
      place i < place (length pre + length code + j).

(** ** Two threads *)

(** If the write of [wcode] in one thread takes effect before the read of
    [rcode] in another, then everything the first thread did before is done
    before everything the second thread does after.  [wtime] and [rtime] are
    readings of one clock. *)
Definition passes_message (m : machine) (wcode rcode : list item) : Prop :=
  forall wpre wpost wplace wtime rpre rpost rplace rtime,
    execution m (wpre ++ wcode ++ wpost) wplace wtime ->
    execution m (rpre ++ rcode ++ rpost) rplace rtime ->
    forall w r, accesses_of wcode Wr w -> accesses_of rcode Rd r ->
      wtime (length wpre + w) < rtime (length rpre + r) ->
      forall i j, is_access wpre i -> is_access rpost j ->
        wtime i < rtime (length rpre + length rcode + j).

(** The same with fences: a write after the first thread's fence, a read before
    the second thread's fence. *)
Definition fences_pass_message (m : machine) (wfence rfence : list item) : Prop :=
  forall wpre wpost wplace wtime rpre rpost rplace rtime,
    execution m (wpre ++ wfence ++ wpost) wplace wtime ->
    execution m (rpre ++ rfence ++ rpost) rplace rtime ->
    forall w r, accesses_of wpost Wr w -> accesses_of rpre Rd r ->
      wtime (length wpre + length wfence + w) < rtime r ->
      forall i j, is_access wpre i -> is_access rpost j ->
        wtime i < rtime (length rpre + length rfence + j).

(** An operation whose reads are kept before the later writes only. *)
Definition acquire_for_writes (m : machine) (code : list item) : Prop :=
  forall pre post place time,
    execution m (pre ++ code ++ post) place time ->
    forall r j, accesses_of code Rd r -> accesses_of post Wr j ->
      time (length pre + r) < time (length pre + length code + j).

(** ** The compiler's constants *)

(** The order each constant of GCC's __atomic functions stands for (__ATOMIC_RELAXED
    is 0, and so on up to __ATOMIC_SEQ_CST, which is 5). *)
Definition compiler_order (c : Z) : option morder :=
  match c with
  | 0 => Some Relaxed | 1 => Some Consume | 2 => Some Acquire
  | 3 => Some Release | 4 => Some AcqRel | 5 => Some SeqCst
  | _ => None
  end%Z.
