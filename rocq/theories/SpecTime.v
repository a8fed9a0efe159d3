(** Specification of time-outs: what the timed waits ask of the operating system. *)
From Coq Require Import ZArith.
Open Scope Z_scope.

(** [r] is the least number of target units not less than [n] source units of [num]/[den] target units each *)
Definition ceiling_of (num den n r : Z) : Prop :=
  n * num <= r * den /\ forall q, n * num <= q * den -> r <= q.

(** struct timespec *)
Record timespec := mkts { tv_sec : Z; tv_nsec : Z }.
Definition normalised (ts : timespec) : Prop := 0 <= tv_nsec ts < 1000000000.
(** the instant or period it denotes, in nanoseconds *)
Definition ts_ns (ts : timespec) : Z := tv_sec ts * 1000000000 + tv_nsec ts.

(** the largest value of a time_t of [w] bits; the counts of std::chrono durations have 64 *)
Definition time_max (w : Z) : Z := 2 ^ (w - 1) - 1.
Definition is_count (n : Z) : Prop := - 2 ^ 63 <= n < 2 ^ 63.
Definition is_time_t (w : Z) : Prop := w = 32 \/ w = 64.

(** the operating system's calls that wait *)
Inductive backend :=
| Futex (w : Z)        (* futex(FUTEX_WAIT) with a relative timespec *)
| Umtx (w : Z)         (* FreeBSD _umtx_op(UMTX_OP_WAIT) with a relative timespec *)
| Ulock2               (* Darwin __ulock_wait2: nanoseconds, 64 bits, 0 is no time-out *)
| Ulock                (* Darwin __ulock_wait: microseconds, 32 bits, 0 is no time-out *)
| UmtxSleep            (* DragonFly umtx_sleep: microseconds, int, 0 is no time-out *)
| WaitOnAddress        (* Windows: milliseconds, 32 bits, 0xFFFFFFFF is no time-out *)
| SleepCv.             (* Windows SleepConditionVariableSRW: the same *)
Inductive arg := Ts (ts : timespec) | Num (n : Z).

(** time_t has 32 or 64 bits *)
Definition fits (b : backend) : Prop := match b with Futex w | Umtx w => is_time_t w | _ => True end.

(** the unit of a call, in nanoseconds *)
Definition unit_ns (b : backend) : Z :=
  match b with Futex _ | Umtx _ | Ulock2 => 1 | Ulock | UmtxSleep => 1000 | WaitOnAddress | SleepCv => 1000000 end.
(** what the system makes of an argument: how many nanoseconds it waits at most; [None]: it waits without limit or
    rejects the argument *)
Definition meaning (b : backend) (x : arg) : option Z :=
  match b, x with
  | Futex w, Ts ts | Umtx w, Ts ts =>
      if (0 <=? tv_sec ts) && (tv_sec ts <=? time_max w) && (0 <=? tv_nsec ts) && (tv_nsec ts <? 1000000000)
      then Some (ts_ns ts) else None
  | Ulock2, Num n => if (0 <? n) && (n <? 2 ^ 64) then Some n else None
  | Ulock, Num n => if (0 <? n) && (n <? 2 ^ 32) then Some (n * 1000) else None
  | UmtxSleep, Num n => if (0 <? n) && (n <? 2 ^ 31) then Some (n * 1000) else None
  | WaitOnAddress, Num n | SleepCv, Num n => if (0 <=? n) && (n <? 2 ^ 32 - 1) then Some (n * 1000000) else None
  | _, _ => None
  end%bool.
(** the longest wait the call can be asked for *)
Definition capacity (b : backend) : Z :=
  match b with
  | Futex w | Umtx w => time_max w * 1000000000 + 999999999
  | Ulock2 => 2 ^ 63 - 1
  | Ulock => (2 ^ 32 - 1) * 1000
  | UmtxSleep => (2 ^ 31 - 1) * 1000
  | WaitOnAddress | SleepCv => (2 ^ 32 - 2) * 1000000
  end.
