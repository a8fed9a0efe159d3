(** * The timed waits on futexes, as text

    PoolTimedTable.v has the statements of [wait_until], [wait_for] and their helpers of D/wait_ops_futex.hpp 126-342.
    Here is what they call: the load of the object, the clocks and the system calls of D/futex.hpp 116-150.  A
    [futex_timespec] has two members, the variables "ts.tv_sec" and "ts.tv_nsec". *)
From Coq Require Import ZArith List Bool String.
From Verif Require Import SpecInt SpecBytes SpecPool Order Conv Prog FindModel RecordsModel PoolModel PoolText PoolLayers PoolTimedTable.
Import ListNotations.
Local Open Scope string_scope.
Local Open Scope Z_scope.
Local Open Scope prog_scope.

Section Timed.
  Variables (pl : platform) (d : odesc) (a : nat).

  (** [bitset]: the system has FUTEX_WAIT_BITSET; [clock]: select_futex_wait (D/wait_ops_futex.hpp 38-95) finds a clock
      the system can wait on *)
  Definition timed_conf (bitset clock : bool) (s : string) : option pval :=
    if is s "futex_private_flag" then Some PU
    else if is s "futex_clock_flag" then Some PU
    else if is s "clock_id" then Some PU
    else if is s "select_futex_wait" then Some (PB clock)
    else if is s "defined(BOOST_ATOMIC_DETAIL_FUTEX_WAIT_BITSET)" then Some (PB bitset)
    else if is s "defined(BOOST_ATOMIC_DETAIL_FUTEX_WAIT_BITSET) && defined(_POSIX_MONOTONIC_CLOCK) && (_POSIX_MONOTONIC_CLOCK >= 0)"
    then Some (PB bitset)
    else None.
  (** the unit of time is the nanosecond; tv_sec has 64 bits, so every number of seconds fits it *)
  Definition timed_ext (f : string) (vs : list pval) : option ans :=
    match vs with
    | [PO _] => if is f "base_type::load" then Some (Ans (ld d a) (fun v : Z => (PZ v, []))) else None
    | [PAddr; PZ v; PZ t; PU] =>
        if is f "futex_wait_until" then Some (Ans (sys_sleep (FO a) v (Some t)) (fun v => (v, [])))
        else if is f "futex_wait_for" then
          Some (Ans (start <- pdo Now ;; sys_sleep (FO a) v (Some ((start : Z) + t))) (fun v => (v, [])))
        else None
    | [PZ s; PZ n] => if is f "futex_timespec" then Some (Ans (Ret tt) (done (PZ (s * 1000000000 + n)))) else None
    | [PZ s] =>
        if is f "fits tv_sec" then Some (Ans (Ret tt) (done (PB true)))
        else if is f "ceil" then Some (Ans (Ret tt) (done (PZ s)))
        else None
    | [PX t] => if is f "ceil" then Some (Ans (Ret tt) (done (PZ t))) else None
    | [PU; PZ _] => if is f "clock_gettime" then Some (Ans (pdo Now) (fun t : Z => (PZ 0, [PZ t]))) else None
    | [] => system f vs
    | _ => None
    end.
  Definition timed_iter (bitset clock : bool) := iter pl d (timed_conf bitset clock) timed_ext 1.
  Definition native_text (bitset clock : bool) (f : string) (old limit : Z) : pprog aret :=
    runf pl d (timed_conf bitset clock) timed_ext (timed_iter bitset clock) timed_futex_fns []
      f [PZ old; PZ limit; PO SeqCst; PB false] (fun v rs _ => ret_waited v rs).
  Definition native_timed_text (k : tkind) (old limit : Z) : pprog aret :=
    match k with
    | UntilSys => native_text (pl_bitset pl) true "wait_until" old limit
    | UntilOther => native_text (pl_bitset pl) false "wait_until" old limit
    | WaitFor => native_text (pl_bitset pl) false "wait_for" old limit
    end.
End Timed.

(** a platform whose waits count nanoseconds in 64 bits: nothing is cut *)
Definition wide_times (pl : platform) : Prop :=
  pl_unit pl = 1%positive /\ forall now left, pl_req pl now left = left.
