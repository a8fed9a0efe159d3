(** * The executions of the library with the timed waits on futexes as they stand in the source, too

    As [pt_impl] and [pt_run] of PoolTextFront.v; the timed waits of objects that sleep on their own storage are those of
    D/wait_ops_futex.hpp (PoolTimedTable.v, PoolTimedLayers.v). *)
From Coq Require Import ZArith List.
From Verif Require Import SpecTyped SpecPool Prog PoolModel PoolFront PoolTextFront PoolTimedLayers.
Import ListNotations.
Local Open Scope prog_scope.

Definition nt_impl (pl : platform) (T : nat -> tobj) (c : nat * tcall) : pprog tret :=
  let t := T (fst c) in
  match t_op t (snd c), d_wait (t_desc t) with
  | ATimed k old limit, WFutex => r <- native_timed_text pl (t_desc t) (fst c) k old limit ;; Ret (t_ret t (snd c) r)
  | _, _ => pt_impl pl T c
  end.
Definition nt_run (pl : platform) (T : nat -> tobj) (m : pmem) (l : list (sched fate (nat * tcall))) :=
  run (pexec (pl_search pl) (pl_init pl)) (nt_impl pl T) (start m) l.
