(** * Critical sections of several threads (C51).

    Threads run on the machine of Reorder.v: the compiler and the processor may
    reorder the accesses of each thread as far as [execution] allows, and each
    access takes effect at one moment for all threads. *)
From Coq Require Import Arith List.
Require Import Verif.Order Verif.Reorder Verif.SpecOrder Verif.FenceModel Verif.SpecFence.
Import ListNotations.

(** The executions of several threads: one execution of each, on one clock. *)
Record together (m : machine) (code : nat -> list item) (place time : nat -> nat -> nat) : Prop := {
  to_thread : forall t, execution m (code t) (place t) (time t);
  to_clock : forall t u i j, is_access (code t) i -> is_access (code u) j ->
    time t i = time u j -> t = u /\ i = j }.

(** Access [i] of thread [t] is a write of [l]. *)
Definition writes_to (code : nat -> list item) (l : nat) (w : nat * nat) : Prop :=
  exists x, nth_error (code (fst w)) (snd w) = Some (Access x) /\ a_kind x = Wr /\ a_loc x = l.

(** The write of [l] that a read at time [now] gets: the last one so far, or
    none, and then the read gets the initial value. *)
Definition gets (code : nat -> list item) (time : nat -> nat -> nat) (l now : nat)
    (w : option (nat * nat)) : Prop :=
  match w with
  | Some w => writes_to code l w /\ time (fst w) (snd w) < now /\
      forall v, writes_to code l v -> time (fst v) (snd v) < now ->
        time (fst v) (snd v) <= time (fst w) (snd w)
  | None => forall v, writes_to code l v -> now <= time (fst v) (snd v)
  end.

(** A read-modify-write, of which [r] is the read and [w] the write, is atomic:
    nobody else writes in between. *)
Definition atomic_at (code : nat -> list item) (time : nat -> nat -> nat) (l t r w : nat) : Prop :=
  time t r < time t w /\
  forall v, writes_to code l v ->
    time t r < time (fst v) (snd v) -> time t w <= time (fst v) (snd v).

(** What a thread does: critical sections, which start with a read-modify-write
    [lock] of the lock and end with a write [unlock] of it; other
    read-modify-writes of the lock, such as vain attempts to take it or the
    registration of a waiter; and anything else. *)
Inductive part :=
| Outside (c : list item)
| Attempt (p : op)
| Section (lock : op) (body : list item) (unlock : op).

Definition part_code (b : backend) (l : nat) (x : part) : list item :=
  match x with
  | Outside c => c
  | Attempt p => emit b l p
  | Section p body q => emit b l p ++ body ++ emit b l q
  end.
Definition code_of (b : backend) (l : nat) (ps : list part) : list item :=
  concat (map (part_code b l) ps).

(** Thread [t] has the part [x] at place [k] of its code. *)
Definition part_at (b : backend) (l : nat) (threads : nat -> list part) (t k : nat) (x : part) : Prop :=
  exists pre post, threads t = pre ++ x :: post /\ k = length (code_of b l pre).
Definition section_at (b : backend) (l : nat) (threads : nat -> list part)
    (t k : nat) (p : op) (body : list item) (q : op) : Prop :=
  part_at b l threads t k (Section p body q).

(** The read that counts is the last one of the operation. *)
Definition last_read (c : list item) (r : nat) : Prop :=
  accesses_of c Rd r /\ forall r', accesses_of c Rd r' -> r' <= r.

(** A read at time [now] finds the lock free ([v = true]) or held.  [leaves t i]
    is what the write [i] of thread [t] leaves; initially the lock is free. *)
Definition finds (code : nat -> list item) (time : nat -> nat -> nat) (leaves : nat -> nat -> bool)
    (l now : nat) (v : bool) : Prop :=
  exists w, gets code time l now w /\
    v = match w with None => true | Some (t, i) => leaves t i end.

(** The lock is used as a lock. *)
Record used_as_lock (b : backend) (l : nat) (threads : nat -> list part)
    (time : nat -> nat -> nat) (leaves : nat -> nat -> bool) : Prop := {
  (** A section starts with a read-modify-write that is an acquire ... *)
  ul_lock : forall t k p body q, section_at b l threads t k p body q ->
    own p Rd /\ own p Wr /\ exists o, read_order p = Some o /\ acquiring o;
  (** ... and is atomic, ... *)
  ul_atomic : forall t k p body q r w, section_at b l threads t k p body q ->
    last_read (emit b l p) r -> accesses_of (emit b l p) Wr w ->
    atomic_at (fun t => code_of b l (threads t)) time l t (k + r) (k + w);
  (** ... finds the lock free ... *)
  ul_free : forall t k p body q r, section_at b l threads t k p body q ->
    last_read (emit b l p) r ->
    finds (fun t => code_of b l (threads t)) time leaves l (time t (k + r)) true;
  (** ... and leaves it held. *)
  ul_held : forall t k p body q w, section_at b l threads t k p body q ->
    accesses_of (emit b l p) Wr w -> leaves t (k + w) = false;
  (** It ends with a write that is a release; normally that write leaves the
      lock free, but nothing below depends on that. *)
  ul_unlock : forall t k p body q, section_at b l threads t k p body q ->
    exists o, write_order q = Some o /\ releasing o;
  (** The other read-modify-writes, of any order, are atomic and leave the
      lock free or held as they find it. *)
  ul_attempt : forall t k p, part_at b l threads t k (Attempt p) -> own p Rd /\ own p Wr;
  ul_attempt_atomic : forall t k p r w, part_at b l threads t k (Attempt p) ->
    last_read (emit b l p) r -> accesses_of (emit b l p) Wr w ->
    atomic_at (fun t => code_of b l (threads t)) time l t (k + r) (k + w) /\
    finds (fun t => code_of b l (threads t)) time leaves l (time t (k + r)) (leaves t (k + w));
  (** Nothing else writes the lock. *)
  ul_outside : forall t k c i x, part_at b l threads t k (Outside c) ->
    nth_error c i = Some (Access x) -> a_kind x = Wr -> a_loc x <> l;
  ul_body : forall t k p body q i x, section_at b l threads t k p body q ->
    nth_error body i = Some (Access x) -> a_kind x = Wr -> a_loc x <> l }.

(** Everything thread [t] does before the end of its section is done before
    anything thread [u] does after the start of its. *)
Definition handed_over (b : backend) (l : nat) (threads : nat -> list part) (time : nat -> nat -> nat)
    (t k : nat) (p : op) (body : list item) (u k' : nat) (p' : op) : Prop :=
  forall i j, is_access (code_of b l (threads t)) i -> i < k + length (emit b l p) + length body ->
    is_access (code_of b l (threads u)) j -> k' + length (emit b l p') <= j ->
    time t i < time u j.
