(** * The executions of the lock pool, the emulated operations and the waits as they stand in the source

    [text_prog] (PoolLayers.v) interprets the statements that PoolTable.v, written by tools/extract_pool.py, has for the
    functions of src/lock_pool.cpp, D/lock_pool.hpp, D/core_operations_emulated.hpp, D/extra_ops_emulated.hpp,
    D/wait_ops_emulated.hpp, D/wait_ops_generic.hpp and D/wait_ops_futex.hpp that an operation runs; [text_fp] (PoolFpLayers.v) those of
    D/fp_ops_emulated.hpp and D/extra_fp_ops_emulated.hpp. *)
From Coq Require Import ZArith List.
From Verif Require Import SpecTyped SpecPool Prog PoolModel PoolFront PoolLayers PoolFpLayers.
Import ListNotations.
Local Open Scope prog_scope.

(** as [t_impl] and [t_run] of PoolFront.v (the conversion of the typed members to bytes and back: D/atomic_impl.hpp
    1-1300, text in C60), with the text below it *)
Definition pt_impl (pl : platform) (T : nat -> tobj) (c : nat * tcall) : pprog tret :=
  let t := T (fst c) in
  let other := r <- text_prog pl (t_desc t) (fst c) (t_op t (snd c)) ;; Ret (t_ret t (snd c) r) in
  match snd c, t_kind t with
  | TFp (FRmw f e), KFp vw ar => if d_locked (t_desc t) then r <- text_fp pl t vw ar f e ;; Ret (TRet r) else other
  | _, _ => other
  end.
Definition pt_run (pl : platform) (T : nat -> tobj) (m : pmem) (l : list (sched fate (nat * tcall))) :=
  run (pexec (pl_search pl) (pl_init pl)) (pt_impl pl T) (start m) l.
