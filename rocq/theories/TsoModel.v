(** * The x86 back end on a processor with store buffers. *)
From Coq Require Import ZArith List.
Require Import Verif.Order Verif.SpecTso.
Import ListNotations.
Open Scope nat_scope.

(** Instructions: a plain [mov] from or to memory, a [lock]-prefixed
    instruction, a [lock]-prefixed instruction on a private variable, nothing. *)
Inductive instruction :=
| IMovFrom (l : nat)
| IMovTo (l : nat) (v : Z)
| ILocked (l : nat) (f : Z -> Z)
| IFence
| INone.

(** core_arch_ops_gcc_x86.hpp 69-82 (store), 84-90 (load), 117-436 for the
    sizes ([lock; xadd], [xchg], [lock; cmpxchg]); fence_arch_ops_gcc_x86.hpp
    32-52.  Simplifications: the compiler keeps the order of the source (see C40
    for what it may do); a loop around [lock; cmpxchg] (411-436) is one step,
    the successful [cmpxchg] (see C01); a failed [cmpxchg] writes back the old
    value, as the processor does. *)
Definition compile (a : aop) : instruction :=
  match a with
  | PlainLoad l | ALoad l _ => IMovFrom l
  | PlainStore l v => IMovTo l v
  | AStore l v o => if is_seq_cst o then ILocked l (fun _ => v) else IMovTo l v
  | ARmw l f _ => ILocked l f
  | AFence o => if is_seq_cst o then IFence else INone
  end.

(** A write: its value and its name. *)
Definition entry : Type := Z * option nat.

(** The processor (Owens, Sarkar, Sewell, "A better x86 memory model: x86-TSO",
    2009): each thread has a queue of stores on their way to memory.  [t_mem l]
    is the list of all the writes of [l] that reached memory, the last one
    last. *)
Record tso_state (p : program) := TSO {
  t_mem : nat -> list entry;
  t_buffer : nat -> list (nat * entry);
  t_threads : nat -> pstate p;
  t_trace : list event }.
Arguments TSO {p} _ _ _ _.
Arguments t_mem {p} _ _.
Arguments t_buffer {p} _ _.
Arguments t_threads {p} _ _.
Arguments t_trace {p} _.

(** What thread [t] finds at [l]: its own last store in the queue, or the
    memory. *)
Definition find {p} (s : tso_state p) (t l : nat) : entry :=
  last (map snd (filter (fun x => Nat.eqb (fst x) l) (t_buffer s t)))
       (last (t_mem s l) (0%Z, None)).

Definition resume {p} (s : tso_state p) (t : nat) (a : aop) (e : entry) : tso_state p :=
  TSO (t_mem s) (t_buffer s)
      (upd (t_threads s) t (presume p t (t_threads s t) (result a (fst e))))
      (t_trace s ++ [Event t a (fst e) (snd e)]).

Definition exec {p} (s : tso_state p) (t : nat) (a : aop) : tso_state p :=
  let name := Some (length (t_trace s)) in
  match compile a with
  | IMovFrom l => resume s t a (find s t l)
  | IMovTo l v =>
      resume (TSO (t_mem s) (upd (t_buffer s) t (t_buffer s t ++ [(l, (v, name))]))
                  (t_threads s) (t_trace s)) t a (0%Z, None)
  | ILocked l f =>
      match t_buffer s t with
      | [] =>
          let old := last (t_mem s l) (0%Z, None) in
          resume (TSO (upd (t_mem s) l (t_mem s l ++ [(f (fst old), name)])) (t_buffer s)
                      (t_threads s) (t_trace s)) t a old
      | _ => s
      end
  | IFence => match t_buffer s t with [] => resume s t a (0%Z, None) | _ => s end
  | INone => resume s t a (0%Z, None)
  end.

(** A step of the machine: a thread executes its next instruction, unless that
    has to wait for the thread's stores, or the oldest store of a thread
    reaches memory. *)
Inductive tso_event := Exec (t : nat) | Flush (t : nat).

Definition tso_step {p} (s : tso_state p) (ev : tso_event) : tso_state p :=
  match ev with
  | Exec t => match pnext p t (t_threads s t) with Some a => exec s t a | None => s end
  | Flush t =>
      match t_buffer s t with
      | [] => s
      | (l, e) :: b =>
          TSO (upd (t_mem s) l (t_mem s l ++ [e])) (upd (t_buffer s) t b)
              (t_threads s) (t_trace s)
      end
  end.

Definition tso_run {p} (s : tso_state p) (sched : list tso_event) : tso_state p :=
  fold_left tso_step sched s.

Definition tso_start (p : program) (init : nat -> Z) (threads : nat -> pstate p) : tso_state p :=
  TSO (fun l => [(init l, None)]) (fun _ => []) threads [].

Definition sc_start (p : program) (init : nat -> Z) (threads : nat -> pstate p) : sc_state p :=
  SC init threads [].
