(** * Concurrent programs over shared variables, sequential consistency, races
    and coherence (C42). *)
From Coq Require Import ZArith List Relations.
Require Import Verif.Order.
Import ListNotations.
Open Scope nat_scope.

(** ** Programs *)

(** What a thread may do next: accesses to ordinary variables, and operations
    of the library.  A read-modify-write is given by the function it applies;
    a compare_exchange is one whose function keeps all values but one. *)
Inductive aop :=
| PlainLoad (l : nat)
| PlainStore (l : nat) (v : Z)
| ALoad (l : nat) (o : morder)
| AStore (l : nat) (v : Z) (o : morder)
| ARmw (l : nat) (f : Z -> Z) (o : morder)
| AFence (o : morder).

(** Any program: each thread [t] is an automaton that names its next action and
    goes on when it is given the result (0 for actions without a result). *)
Record program := Program {
  pstate : Type;
  pnext : nat -> pstate -> option aop;
  presume : nat -> pstate -> Z -> pstate }.

Definition read_loc (a : aop) : option nat :=
  match a with PlainLoad l | ALoad l _ | ARmw l _ _ => Some l | _ => None end.
Definition write_loc (a : aop) : option nat :=
  match a with PlainStore l _ | AStore l _ _ | ARmw l _ _ => Some l | _ => None end.
Definition is_plain (a : aop) : Prop :=
  match a with PlainLoad _ | PlainStore _ _ => True | _ => False end.

(** What the action writes, if it finds the value [old]. *)
Definition written (a : aop) (old : Z) : Z :=
  match a with PlainStore _ v | AStore _ v _ => v | ARmw _ f _ => f old | _ => 0%Z end.
(** What the action returns, if it finds the value [old]. *)
Definition result (a : aop) (old : Z) : Z :=
  match read_loc a with Some _ => old | None => 0%Z end.

(** ** Sequential consistency *)

Definition upd {A : Type} (f : nat -> A) (k : nat) (x : A) : nat -> A :=
  fun k' => if Nat.eqb k' k then x else f k'.

(** What a run shows: who did what, with which result. *)
Definition observation : Type := nat * aop * Z.

Record sc_state (p : program) := SC {
  sc_mem : nat -> Z;
  sc_threads : nat -> pstate p;
  sc_trace : list observation }.
Arguments SC {p} _ _ _.
Arguments sc_mem {p} _ _.
Arguments sc_threads {p} _ _.
Arguments sc_trace {p} _.

Definition location (a : aop) : nat :=
  match a with
  | PlainLoad l | PlainStore l _ | ALoad l _ | AStore l _ _ | ARmw l _ _ => l
  | AFence _ => 0
  end.

(** Thread [t] makes its next action, in one step, on the memory. *)
Definition sc_step {p : program} (s : sc_state p) (t : nat) : sc_state p :=
  match pnext p t (sc_threads s t) with
  | None => s
  | Some a =>
      let old := sc_mem s (location a) in
      SC (match write_loc a with
          | Some l => upd (sc_mem s) l (written a old)
          | None => sc_mem s
          end)
         (upd (sc_threads s) t (presume p t (sc_threads s t) (result a old)))
         (sc_trace s ++ [(t, a, result a old)])
  end.

Definition sc_run {p : program} (s : sc_state p) (sched : list nat) : sc_state p :=
  fold_left sc_step sched s.

(** ** Races *)

Definition thread_of (e : observation) : nat := fst (fst e).
Definition action_of (e : observation) : aop := snd (fst e).

(** One step of happens-before: the order of a thread, or an atomic write and a
    later atomic read of the same variable (of another thread, if the edge is
    to be of any use). *)
Inductive hb_edge (tr : list observation) (i j : nat) : Prop :=
| hb_po : forall e e', nth_error tr i = Some e -> nth_error tr j = Some e' ->
    i < j -> thread_of e = thread_of e' -> hb_edge tr i j
| hb_sync : forall e e' l, nth_error tr i = Some e -> nth_error tr j = Some e' ->
    i < j -> ~ is_plain (action_of e) -> ~ is_plain (action_of e') ->
    write_loc (action_of e) = Some l -> read_loc (action_of e') = Some l -> hb_edge tr i j.

Definition happens_before (tr : list observation) : nat -> nat -> Prop :=
  clos_trans nat (hb_edge tr).

(** Two accesses of one variable, by two threads, not both reads, not both
    atomic. *)
Definition conflict (e e' : observation) : Prop :=
  thread_of e <> thread_of e' /\
  (is_plain (action_of e) \/ is_plain (action_of e')) /\
  exists l,
    (write_loc (action_of e) = Some l /\
       (write_loc (action_of e') = Some l \/ read_loc (action_of e') = Some l)) \/
    (read_loc (action_of e) = Some l /\ write_loc (action_of e') = Some l).

Definition race_free (tr : list observation) : Prop :=
  forall i j e e', i < j -> nth_error tr i = Some e -> nth_error tr j = Some e' ->
    conflict e e' -> happens_before tr i j.

(** All atomic operations are seq_cst (fences may have any order). *)
Definition seq_cst_action (a : aop) : Prop :=
  match a with
  | ALoad _ o | AStore _ _ o | ARmw _ _ o => o = SeqCst
  | _ => True
  end.

(** ** Coherence *)

(** An action of a run on a machine where one can tell the writes apart.  They
    are named by their place in the trace; [None] is the initial value.
    [e_from] is the write the action read from, if it read. *)
Record event := Event {
  e_thread : nat;
  e_op : aop;
  e_value : Z;
  e_from : option nat }.

Definition observed (e : event) : observation := (e_thread e, e_op e, result (e_op e) (e_value e)).

(** Operations that a seq_cst total order relates: seq_cst stores and fences,
    and read-modify-writes, on x86 of any order. *)
Definition strong (a : aop) : Prop :=
  match a with
  | AStore _ _ o | AFence o => o = SeqCst
  | ARmw _ _ _ => True
  | _ => False
  end.

(** One step of "comes before": the order of a thread, from a write to a read
    that read from it, and the order of strong operations. *)
Inductive edge (tr : list event) (i j : nat) : Prop :=
| edge_po : forall e e', nth_error tr i = Some e -> nth_error tr j = Some e' ->
    i < j -> e_thread e = e_thread e' -> edge tr i j
| edge_rf : forall e' l, nth_error tr j = Some e' -> read_loc (e_op e') = Some l ->
    e_from e' = Some i -> edge tr i j
| edge_strong : forall e e', nth_error tr i = Some e -> nth_error tr j = Some e' ->
    i < j -> strong (e_op e) -> strong (e_op e') -> edge tr i j.

Definition comes_before (tr : list event) : nat -> nat -> Prop := clos_trans nat (edge tr).

(** The event at [i] writes [l]; the event at [j] reads [l] from [w]. *)
Definition writes (tr : list event) (i l : nat) : Prop :=
  exists e, nth_error tr i = Some e /\ write_loc (e_op e) = Some l.
Definition reads_from (tr : list event) (j l : nat) (w : option nat) : Prop :=
  exists e, nth_error tr j = Some e /\ read_loc (e_op e) = Some l /\ e_from e = w.

(** In the order in which the writes of a variable reached the memory, [a] is
    before [b]. *)
Definition older (order : list (option nat)) (a b : option nat) : Prop :=
  exists h1 h2 h3, order = h1 ++ a :: h2 ++ b :: h3.

(** [orders l] is the order of the writes of [l].  Nothing is read that is older
    than a write that comes before, and writes are in order if they come one
    before the other; a read-modify-write directly follows the write it read
    from. *)
Record coherent (tr : list event) (orders : nat -> list (option nat)) : Prop := {
  co_read : forall i j l w, writes tr i l -> comes_before tr i j -> reads_from tr j l w ->
    ~ older (orders l) w (Some i);
  co_write : forall i j l, writes tr i l -> comes_before tr i j -> writes tr j l ->
    ~ older (orders l) (Some j) (Some i);
  co_atomic : forall j l w e, nth_error tr j = Some e -> (exists f o, e_op e = ARmw l f o) ->
    e_from e = w ->
    exists h1 h2, orders l = h1 ++ w :: Some j :: h2;
  co_forward : forall i j, comes_before tr i j -> i < j }.

(** Reads return what was written. *)
Definition values_explained (init : nat -> Z) (tr : list event) : Prop :=
  forall j l w, reads_from tr j l w ->
    exists e, nth_error tr j = Some e /\
      match w with
      | None => e_value e = init l
      | Some i => exists e', nth_error tr i = Some e' /\ write_loc (e_op e') = Some l /\
                    e_value e = written (e_op e') (e_value e')
      end.
