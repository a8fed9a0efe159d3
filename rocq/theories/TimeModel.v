(** The arithmetic of the timed waits.  D = include/boost/atomic/detail, S = src/lock_pool.cpp.
    Signed overflow, which C++ leaves undefined, is the outcome [None]. *)
From Coq Require Import ZArith Bool.
From Verif Require Import SpecTime PoolModel.
Open Scope Z_scope.

Definition i64 (z : Z) : option Z := if (- 2 ^ 63 <=? z) && (z <? 2 ^ 63) then Some z else None.
Definition obind {A B} (x : option A) (f : A -> option B) : option B := match x with Some a => f a | None => None end.
Notation "'let!' x := a 'in' b" := (obind a (fun x => b)) (at level 200, x binder, right associativity).

(** D/chrono.hpp 44-51: conv_ratio = num/den; the counts are 64-bit integers *)
Definition ceil_lib (num den n : Z) : option Z :=
  let! p := i64 (n * num) in
  i64 (Z.quot p den + (if Z.rem p den =? 0 then 0 else 1)).
(** std::chrono::ceil, used when available (D/chrono.hpp 38-40): duration_cast, then one more when that is less *)
Definition ceil_cxx (num den n : Z) : option Z :=
  let! p := i64 (n * num) in
  let t := Z.quot p den in
  i64 (if t * den <? p then t + 1 else t).
Definition ceil_to (std : bool) (num den n : Z) : option Z := if std then ceil_cxx num den n else ceil_lib num den n.

(** a relative timespec: D/wait_ops_futex.hpp 150-160, D/wait_ops_freebsd_umtx.hpp 122-132, 300-310, S 728-738, 764-774;
    [w] is the width of tv_sec *)
Definition rel_timespec (w nsec : Z) : timespec :=
  let sec := Z.quot nsec 1000000000 in
  if sec <=? time_max w then mkts sec (Z.rem nsec 1000000000) else mkts (time_max w) 999999999.

(** what a wait that is given the time left does: report the time-out, or call the system *)
Inductive verdict := Late | Sleep (x : arg).
(** D/wait_ops_futex.hpp 143-162, D/wait_ops_freebsd_umtx.hpp 115-141, 293-312, D/wait_ops_darwin_ulock.hpp 113-134,
    D/wait_ops_dragonfly_umtx.hpp 78-90, D/wait_ops_windows.hpp 88-102; [rest]: the time left in the unit of the call.
    SleepCv: S 893-902 *)
Definition ask (b : backend) (rest : Z) : verdict :=
  if rest <=? 0 then Late
  else Sleep
    match b with
    | Futex w | Umtx w => Ts (rel_timespec w rest)
    | Ulock2 => Num (rest mod 2 ^ 64)
    | Ulock => Num (if rest <=? 2 ^ 32 - 1 then rest mod 2 ^ 32 else 2 ^ 32 - 1)
    | UmtxSleep => Num (if rest <=? 2 ^ 31 - 1 then rest else 2 ^ 31 - 1)
    | WaitOnAddress => Num (if rest <=? 2 ^ 32 - 2 then rest mod 2 ^ 32 else 2 ^ 32 - 2)
    | SleepCv => Num (if rest <? 2 ^ 32 - 2 then rest mod 2 ^ 32 else 2 ^ 32 - 2)
    end.
(** one round of the loop: [timeout - now] in ticks of num/den units, rounded up *)
Definition decide (b : backend) (std : bool) (num den timeout now : Z) : option verdict :=
  let! d := i64 (timeout - now) in
  let! rest := ceil_to std num den d in
  Some (ask b rest).
(** the same when the wait goes through the pool on Windows: D/wait_ops_emulated.hpp 88-95, D/wait_ops_generic.hpp 98-105,
    then S 898: rounded up twice, to nanoseconds and to milliseconds *)
Definition decide_cv (std : bool) (num den timeout now : Z) : option verdict :=
  let! d := i64 (timeout - now) in
  let! nsec := ceil_to std num den d in
  if nsec <=? 0 then Some Late
  else
    let! msec := ceil_to std 1 1000000 nsec in
    Some (ask SleepCv msec).

(** the deadline of [wait_for]: D/wait_ops_windows.hpp 135-136, D/wait_ops_darwin_ulock.hpp 166-167,
    D/wait_ops_dragonfly_umtx.hpp 123-124, D/wait_ops_futex.hpp 333-334, D/wait_ops_freebsd_umtx.hpp 271-272, 345-346,
    D/wait_ops_emulated.hpp 210-211, D/wait_ops_generic.hpp 224-225, 358-359: steady_clock::now() + timeout, in ticks of the clock *)
Definition for_deadline (now timeout : Z) : option Z := i64 (now + timeout).
(** with an absolute timespec: D/wait_ops_futex.hpp 297-303, D/wait_ops_freebsd_umtx.hpp 258-265; the time-out has ticks of
    num/den nanoseconds.  [Some None]: beyond time_t, the deadline above is used instead *)
Definition for_timespec (std : bool) (w num den : Z) (now : timespec) (timeout : Z) : option (option timespec) :=
  let! c := ceil_to std num den timeout in
  let! nsec := i64 (tv_nsec now + c) in
  let! sec := i64 (tv_sec now + Z.quot nsec 1000000000) in
  Some (if sec <=? time_max w then Some (mkts sec (Z.rem nsec 1000000000)) else None).
(** the condition variable: S 487-501 *)
Definition cv_timespec (w : Z) (now : timespec) (rel : Z) : option timespec :=
  let! nsec := i64 (rel + tv_nsec now) in
  let! sec := i64 (tv_sec now + Z.quot nsec 1000000000) in
  Some (if sec <=? time_max w then mkts sec (Z.rem nsec 1000000000) else mkts (time_max w) 999999999).

(** D/chrono.hpp 68-85; [epoch]: the POSIX time of the clock's epoch; the conversion to time_t wraps around *)
Definition to_time_t (w z : Z) : Z := (z + 2 ^ (w - 1)) mod 2 ^ w - 2 ^ (w - 1).
Definition to_timespec (w epoch time_ns : Z) : timespec :=
  let sec := to_time_t w (epoch + to_time_t w (Z.quot time_ns 1000000000)) in
  let r := Z.rem time_ns 1000000000 in
  if r <? 0 then mkts (sec - 1) (r + 1000000000) else mkts sec r.
(** S 473-479: is the deadline reached?  S 481-483, 722-725: how much is left *)
Definition reached (now limit : timespec) : bool :=
  (tv_sec limit <? tv_sec now) || (tv_sec now =? tv_sec limit) && (tv_nsec limit <=? tv_nsec now).
Definition ts_left (limit now : timespec) : option Z :=
  let! s := i64 (tv_sec limit - tv_sec now) in
  let! ns := i64 (s * 1000000000) in
  i64 (ns + (tv_nsec limit - tv_nsec now)).

(** The platform of PoolModel.v made from a back end: the pool has its own [lk] *)
Definition asked (b : backend) (rest : Z) : Z :=
  match ask b rest with
  | Sleep x => match meaning b x with Some len => len | None => 0 end
  | Late => 0
  end.
Definition with_backend (pl : platform) (b : backend) (std : bool) : platform :=
  Build_platform (pl_lock pl) (pl_log2 pl) (pl_malloc pl) (pl_bitset pl) (pl_search pl) (pl_init pl)
    (fun _ rest => asked b rest) (Z.to_pos (unit_ns b)) std.
