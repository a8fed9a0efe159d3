(** * Model of the lock pool, of the operations on lock-based objects, and of waiting and notifying.

    [D] abbreviates include/boost/atomic/detail, [S] src/lock_pool.cpp.  Plain (non-atomic) accesses are made
    byte by byte and set [fault] when the thread does not hold the lock it claims to hold; so does an undefined
    outcome of the wait records (RecordsModel). *)
From Coq Require Import ZArith List Bool Arith.
From Verif Require Import SpecInt SpecBytes SpecPool Order Conv Prog FindModel RecordsModel.
Import ListNotations.
Open Scope Z_scope.
Open Scope prog_scope.

(** ** Platform and objects *)

(** the three implementations of the locks: S 314-505, 507-822, 824-912 *)
Inductive lockkind := LPthread | LFutex | LSrw.
Record platform := {
  pl_lock : lockkind;
  pl_log2 : Z;              (* BOOST_ATOMIC_LOCK_POOL_SIZE_LOG2, S 44-60, 932 *)
  pl_malloc : Z;            (* malloc_alignment, D/lock_pool.hpp 87 *)
  pl_bitset : bool;         (* futex_wait_until is available for the clock, S 681-692; pthread: the condition
                               variable can wait on the clock, S 448-466 *)
  pl_search : Z -> list Z -> nat -> option nat;   (* find_address *)
  pl_init : nat;            (* initial_capacity *)
  pl_req : Z -> Z -> Z;     (* at the given time, with so many units left, the length of the wait the system is asked
                               for: cut to what the system call takes.  Any function here; the actual ones are in
                               TimeModel.v *)
  pl_unit : positive;       (* clock ticks in the unit in which the native waits count: nanoseconds, microseconds
                               (D/wait_ops_darwin_ulock.hpp 113-117, D/wait_ops_dragonfly_umtx.hpp 78) or milliseconds
                               (D/wait_ops_windows.hpp 88) *)
  pl_std : bool             (* std::chrono::ceil is available: D/chrono.hpp 38-53 *)
}.

(** rounding up to units of [u] ticks; D/chrono.hpp 44-51 for durations whose ratio is 1 : [u] (TimeModel.v has the
    general case), [std::chrono::ceil] *)
Definition ceil_old (u n : Z) : Z := Z.quot n u + (if Z.rem n u =? 0 then 0 else 1).
Definition ceil_std (u n : Z) : Z := - (- n / u).
Definition units (pl : platform) (n : Z) : Z := (if pl_std pl then ceil_std else ceil_old) (Zpos (pl_unit pl)) n.

(** which wait_operations serve the object: D/wait_ops_emulated.hpp (lock-based objects), D/wait_ops_generic.hpp
    without and with inter-process support, D/wait_ops_futex.hpp *)
Inductive wkind := WEmulated | WPool | WPoll | WFutex.
Record odesc := {
  d_addr : Z;               (* address of the storage *)
  d_size : nat;             (* its size in bytes *)
  d_align : Z;              (* core_operations::storage_alignment *)
  d_be : bool;              (* byte order *)
  d_wait : wkind
}.
Definition d_bits (d : odesc) : Z := 8 * Z.of_nat (d_size d).
Definition d_locked (d : odesc) : bool := match d_wait d with WEmulated => true | _ => false end.

(** D/lock_pool.hpp 77-92; the division of pointers is exact arithmetic on addresses *)
Definition hash_ptr (malloc_alignment alignment ptr : Z) : Z :=
  let h := ptr / alignment in
  if alignment =? malloc_alignment then h else Z.lxor h (ptr / malloc_alignment).
(** S 932, 977-980 *)
Definition lock_pool_size (pl : platform) : Z := Z.shiftl 1 (pl_log2 pl).
Definition get_lock_index (pl : platform) (h : Z) : Z := Z.land h (lock_pool_size pl - 1).
(** D/lock_pool.hpp 101-108 and S 1135-1147: [scoped_lock< Alignment >(addr)] *)
Definition lock_of (pl : platform) (d : odesc) : nat :=
  Z.to_nat (get_lock_index pl (hash_ptr (pl_malloc pl) (d_align d) (d_addr d))).

(** ** The machine *)

(** what a thread can sleep on: the futex of lock [i], the condition of record [k] of lock [i], the storage of a
    lock-free object *)
Inductive fut := FM (i : nat) | FC (i k : nat) | FO (a : nat).
Definition fut_eqb (f g : fut) : bool :=
  match f, g with
  | FM i, FM j => Nat.eqb i j
  | FC i k, FC j l => Nat.eqb i j && Nat.eqb k l
  | FO a, FO b => Nat.eqb a b
  | _, _ => false
  end.

Record pmem := mkp {
  mx : nat -> Z;                   (* m_mutex of the futex locks *)
  own : nat -> option nat;         (* owner of an OS lock; for futex locks only bookkeeping, no program reads it *)
  byt : Z -> Z;                    (* the bytes of lock-based objects *)
  cel : nat -> Z;                  (* the storage words of lock-free objects *)
  wl : nat -> wlist;               (* the wait records *)
  cnd : nat -> nat -> Z;           (* m_cond of record k of lock i *)
  wct : nat -> nat -> Z;           (* m_waiter_count *)
  slp : list (nat * fut);          (* sleeping threads *)
  clk : Z;                         (* time *)
  unl : nat -> Z;                  (* bookkeeping: how often lock i has been released *)
  ntf : nat -> nat -> Z;           (* bookkeeping: how often m_cond has been incremented *)
  fault : bool                     (* a plain access without the lock, or an undefined outcome, has happened *)
}.

Definition fset {A} (f : nat -> A) (i : nat) (x : A) : nat -> A := fun j => if Nat.eqb j i then x else f j.
Definition bset (f : Z -> Z) (z v : Z) : Z -> Z := fun y => if y =? z then v else f y.
Definition fset2 {A} (f : nat -> nat -> A) (i k : nat) (x : A) : nat -> nat -> A := fset f i (fset (f i) k x).

Definition set_mx m i v o u := mkp (fset (mx m) i v) (fset (own m) i o) (byt m) (cel m) (wl m) (cnd m) (wct m) (slp m) (clk m) (fset (unl m) i u) (ntf m) (fault m).
Definition set_own m i o := mkp (mx m) (fset (own m) i o) (byt m) (cel m) (wl m) (cnd m) (wct m) (slp m) (clk m) (unl m) (ntf m) (fault m).
Definition set_byt m z v := mkp (mx m) (own m) (bset (byt m) z v) (cel m) (wl m) (cnd m) (wct m) (slp m) (clk m) (unl m) (ntf m) (fault m).
Definition set_cel m a v := mkp (mx m) (own m) (byt m) (fset (cel m) a v) (wl m) (cnd m) (wct m) (slp m) (clk m) (unl m) (ntf m) (fault m).
Definition set_wl m i l := mkp (mx m) (own m) (byt m) (cel m) (fset (wl m) i l) (cnd m) (wct m) (slp m) (clk m) (unl m) (ntf m) (fault m).
Definition set_cnd m i k v n := mkp (mx m) (own m) (byt m) (cel m) (wl m) (fset2 (cnd m) i k v) (wct m) (slp m) (clk m) (unl m) (fset2 (ntf m) i k n) (fault m).
Definition set_wct m i k v := mkp (mx m) (own m) (byt m) (cel m) (wl m) (cnd m) (fset2 (wct m) i k v) (slp m) (clk m) (unl m) (ntf m) (fault m).
Definition set_slp m l := mkp (mx m) (own m) (byt m) (cel m) (wl m) (cnd m) (wct m) l (clk m) (unl m) (ntf m) (fault m).
Definition set_clk m c := mkp (mx m) (own m) (byt m) (cel m) (wl m) (cnd m) (wct m) (slp m) c (unl m) (ntf m) (fault m).
Definition set_fault m := mkp (mx m) (own m) (byt m) (cel m) (wl m) (cnd m) (wct m) (slp m) (clk m) (unl m) (ntf m) true.

(** the choices of hardware, operating system and allocator *)
Record fate := mkf {
  f_lucky : bool;        (* a weak compare-exchange that could succeed does *)
  f_spur : bool;         (* a sleeping thread wakes for no reason (signal, spurious wake-up) *)
  f_pick : nat;          (* which sleeping thread is woken *)
  f_adv : Z;             (* time that has passed *)
  f_buf : bool; f_rec : bool   (* the allocator can serve a buffer / a record *)
}.

Inductive wake := Woken | Interrupted | TimedOut.

Inductive pact :=
| MLoad (i : nat) (o : morder)             (* the futex word: load, compare_exchange, opaque_or; orders: see SpecHand.v *)
| MCas (weak : bool) (i : nat) (e d : Z) (so fo : morder)
| MOr (i : nat) (v : Z) (o : morder)
| FWait (f : fut) (v : Z)                  (* futex wait: fall asleep if the word is [v]; false: EAGAIN *)
| FSleep (deadline : option Z)             (* ... the sleep; also the sleep of a condition variable *)
| FWake (f : fut) (all : bool)             (* futex signal and broadcast; pthread_cond_signal and _broadcast *)
| FRequeue (i k : nat) (all : bool)        (* futex_requeue, waking none *)
| CLoad (i k : nat)
| CAdd (i k : nat)
| WcGet (i k : nat)
| WcSet (i k : nat) (v : Z)
| OsTry (i : nat)                          (* OS mutex: trylock, lock, unlock *)
| OsLock (i : nat)
| OsUnlock (i : nat)
| CvWait (i k : nat)                       (* OS condition variable: release the mutex and fall asleep *)
| BRd (i : nat) (z : Z)                    (* plain access to the byte at [z], claiming to hold lock [i] *)
| BWr (i : nat) (z v : Z)
| WlBegin (i : nat) (z : Z)                (* allocate_wait_state, free_wait_state, find, the clean-up of one lock *)
| WlEnd (i k : nat)
| WlFind (i : nat) (z : Z)
| WlCleanup (i : nat)
| ACell (a : nat) (w : Z) (o : iop)        (* an operation of a lock-free object *)
| ACellUpd (a : nat) (f : form) (g : Z -> Z)
| Now
| Pause.                                   (* thread_pause, wait_some *)

Definition presp (a : pact) : Type :=
  match a with
  | MLoad _ _ | CLoad _ _ | WcGet _ _ | BRd _ _ | Now => Z
  | MCas _ _ _ _ _ _ => (bool * Z)%type
  | FWait _ _ | OsTry _ => bool
  | FSleep _ => wake
  | FWake _ _ => nat
  | WlBegin _ _ | WlFind _ _ => option nat
  | ACell _ _ _ | ACellUpd _ _ _ => iret
  | _ => unit
  end.

(** the word of a futex *)
Definition fword (m : pmem) (f : fut) : Z :=
  match f with FM i => mx m i | FC i k => cnd m i k | FO a => cel m a end.
Definition on (f : fut) (p : nat * fut) : bool := fut_eqb (snd p) f.
Definition sleepers (m : pmem) (f : fut) : list nat := map fst (filter (on f) (slp m)).
Definition asleep (m : pmem) (t : nat) : bool := existsb (fun p => Nat.eqb (fst p) t) (slp m).
Definition rouse (t : nat) (l : list (nat * fut)) : list (nat * fut) := filter (fun p => negb (Nat.eqb (fst p) t)) l.
(** which sleeper the system picks *)
Definition picked (m : pmem) (f : fut) (n : nat) : option nat :=
  let l := sleepers m f in nth_error l (Nat.modulo n (length l)).
Definition owned (m : pmem) (i t : nat) : bool := match own m i with Some u => Nat.eqb u t | None => false end.
Definition guarded (m : pmem) (i t : nat) (m' : pmem) : pmem := if owned m i t then m' else set_fault m'.

(** an operation of a lock-free object is one indivisible action; that the code achieves this is C01-C12 *)
Definition cell_step (w x : Z) (o : iop) (lucky : bool) : Z * iret :=
  match o with
  | Store v => (v, RUnit)
  | Load => (x, RVal x)
  | Exchange v => (v, RVal x)
  | CasStrong e d => if x =? e then (d, RCas true x) else (x, RCas false x)
  | CasWeak e d => if (x =? e) && lucky then (d, RCas true x) else (x, RCas false x)
  | Rmw f e => (wrap w (eff_apply e x), report f x (wrap w (eff_apply e x)))
  | BitTest k i => (wrap w (bit_apply k x i), RBool (Z.testbit x i))
  end.

Section Machine.
  Variables (search : Z -> list Z -> nat -> option nat) (init : nat).

  Definition pexec (t : nat) (a : pact) (m : pmem) (w : fate) : option (pmem * presp a) :=
    match a return option (pmem * presp a) with
    | MLoad i _ => Some (m, mx m i)
    | MCas weak i e d _ _ =>
        if (mx m i =? e) && (negb weak || f_lucky w) then
          Some (set_mx m i d
                  (if Z.odd d then (if Z.odd e then own m i else Some t) else None)
                  (if Z.odd e && negb (Z.odd d) then unl m i + 1 else unl m i), (true, e))
        else Some (m, (false, mx m i))
    | MOr i v _ => Some (set_mx m i (Z.lor (mx m i) v) (own m i) (unl m i), tt)
    | FWait f v => if fword m f =? v then Some (set_slp m ((t, f) :: slp m), true) else Some (m, false)
    | FSleep dl =>
        if asleep m t then
          if f_spur w then Some (set_slp m (rouse t (slp m)), Interrupted)
          else match dl with
               | Some d => let c := clk m + Z.max 0 (f_adv w) in
                           if d <=? c then Some (set_clk (set_slp m (rouse t (slp m))) c, TimedOut) else None
               | None => None
               end
        else Some (m, Woken)
    | FWake f all =>
        if all then Some (set_slp m (filter (fun p => negb (on f p)) (slp m)), length (sleepers m f))
        else match picked m f (f_pick w) with
             | Some u => Some (set_slp m (rouse u (slp m)), 1%nat)
             | None => Some (m, 0%nat)
             end
    | FRequeue i k all =>
        if all then Some (set_slp m (map (fun p => if on (FC i k) p then (fst p, FM i) else p) (slp m)), tt)
        else match picked m (FC i k) (f_pick w) with
             | Some u => Some (set_slp m ((u, FM i) :: rouse u (slp m)), tt)
             | None => Some (m, tt)
             end
    | CLoad i k => Some (m, cnd m i k)
    | CAdd i k => Some (set_cnd m i k (wrap 32 (cnd m i k + 1)) (ntf m i k + 1), tt)
    | WcGet i k => Some (guarded m i t m, wct m i k)
    | WcSet i k v => Some (guarded m i t (set_wct m i k v), tt)
    | OsTry i => match own m i with None => Some (set_own m i (Some t), true) | Some _ => Some (m, false) end
    | OsLock i => match own m i with None => Some (set_own m i (Some t), tt) | Some _ => None end
    | OsUnlock i => Some (guarded m i t (set_own m i None), tt)
    | CvWait i k => Some (guarded m i t (set_slp (set_own m i None) ((t, FC i k) :: slp m)), tt)
    | BRd i z => Some (guarded m i t m, byt m z)
    | BWr i z v => Some (guarded m i t (set_byt m z v), tt)
    | WlBegin i z =>
        match allocate_wait_state search init (wl m i) z (f_buf w) (f_rec w) with
        | Some (l, r) => Some (guarded m i t (set_wl m i l), r)
        | None => Some (set_fault m, None)
        end
    | WlEnd i k =>
        match free_wait_state (wl m i) k with
        | Some l => Some (guarded m i t (set_wl m i l), tt)
        | None => Some (set_fault m, tt)
        end
    | WlFind i z =>
        match find search (wl m i) z with
        | Some r => Some (guarded m i t m, r)
        | None => Some (set_fault m, None)
        end
    | WlCleanup i =>
        match cleanup (wl m i) with
        | Some l => Some (guarded m i t (set_wl m i l), tt)
        | None => Some (set_fault m, tt)
        end
    | ACell a wd o => let y := cell_step wd (cel m a) o (f_lucky w) in Some (set_cel m a (fst y), snd y)
    | ACellUpd a f g => Some (set_cel m a (g (cel m a)), report f (cel m a) (g (cel m a)))
    | Now => let c := clk m + Z.max 0 (f_adv w) in Some (set_clk m c, c)
    | Pause => Some (m, tt)
    end.
End Machine.

Definition pprog := prog pact presp.
Definition pdo (a : pact) : pprog (presp a) := do a.

(** ** The locks *)

Definition locked : Z := 1.        (* mutex_bits, S 516-525 *)
Definition contended : Z := 2.
Definition counter_one : Z := 4.
Definition u32 : Z -> Z := wrap 32.

(** futex [lock_slow_path], S 589-612 *)
Definition futex_wait_on (f : fut) (v : Z) : pprog bool :=   (* futex_wait, errors other than EAGAIN, EINTR left out *)
  q <- pdo (FWait f v) ;; (if q : bool then (pdo (FSleep None) ;;; Ret true) else Ret false).
Definition lock_slow_path (i : nat) : pprog unit :=
  prev <- pdo (MLoad i Relaxed) ;;
  loop (prev : Z) (fun prev =>
    if Z.land prev locked =? 0 then
      (' (b, cur) <- pdo (MCas true i prev (Z.lor prev locked) Acquire Relaxed) ;;
       if b : bool then Ret (inr tt) else Ret (inl (cur : Z)))
    else
      (' (b, cur) <- pdo (MCas true i prev (Z.lor prev contended) Relaxed Relaxed) ;;
       if b : bool then
         (futex_wait_on (FM i) (Z.lor prev contended) ;;;
          prev <- pdo (MLoad i Relaxed) ;; Ret (inl (prev : Z)))
       else Ret (inl (cur : Z)))).
(** futex [long_lock], S 571-586; [short_lock] calls it *)
Fixpoint futex_spin (n : nat) (i : nat) : pprog unit :=
  match n with
  | O => lock_slow_path i
  | S n' =>
      prev <- pdo (MLoad i Relaxed) ;;
      (if Z.land prev locked =? 0 then
         (' (b, _) <- pdo (MCas false i prev (Z.lor prev locked) Acquire Relaxed) ;;
          if b : bool then Ret tt else (pdo Pause ;;; futex_spin n' i))
       else (pdo Pause ;;; futex_spin n' i))
  end.
(** futex [unlock], S 615-636 *)
Definition futex_unlock (i : nat) : pprog unit :=
  prev <- pdo (MLoad i Relaxed) ;;
  ' (prev, new) <- loop (prev : Z) (fun prev =>
      let new := u32 (Z.land prev (Z.lnot locked) + counter_one) in
      (' (b, cur) <- pdo (MCas true i prev new Release Relaxed) ;;
       if b : bool then Ret (inr (prev, new)) else Ret (inl (cur : Z)))) ;;
  if negb (Z.land prev contended =? 0) then
    (woken <- pdo (FWake (FM i) false) ;;
     if Nat.eqb woken 0 then
       (pdo (MCas false i new (Z.land new (Z.lnot contended)) Relaxed Relaxed) ;;; Ret tt)
     else Ret tt)
  else Ret tt.

(** pthread [long_lock], S 412-424 *)
Fixpoint os_spin (n : nat) (i : nat) : pprog unit :=
  match n with
  | O => pdo (OsLock i)
  | S n' => b <- pdo (OsTry i) ;; (if b : bool then Ret tt else (pdo Pause ;;; os_spin n' i))
  end.

Definition acquire (lk : lockkind) (i : nat) : pprog unit :=
  match lk with
  | LFutex => futex_spin 10 i
  | LPthread => os_spin 5 i
  | LSrw => pdo (OsLock i)              (* AcquireSRWLockExclusive, S 855-870 *)
  end.
Definition release (lk : lockkind) (i : nat) : pprog unit :=
  match lk with
  | LFutex => futex_unlock i
  | LPthread | LSrw => pdo (OsUnlock i) (* S 427-430, 873-876 *)
  end.

(** ** Waiting on and notifying a wait record *)

(** futex [wait_state::wait], [wait_until], [wait_for]: S 640-793.  The common part: read the counter, count the
    waiter, release the lock; at the end, take the lock and uncount. *)
Definition futex_enter (i k : nat) : pprog Z :=
  pc <- pdo (CLoad i k) ;;
  c <- pdo (WcGet i k) ;;
  pdo (WcSet i k (c + 1)) ;;;
  futex_unlock i ;;;
  Ret (pc : Z).
Definition futex_leave (i k : nat) : pprog unit :=
  futex_spin 10 i ;;;
  c <- pdo (WcGet i k) ;;
  pdo (WcSet i k (c - 1)).
(** one futex wait with an optional deadline: [None] is EAGAIN *)
Definition cond_sleep (i k : nat) (pc : Z) (dl : option Z) : pprog (option wake) :=
  q <- pdo (FWait (FC i k) pc) ;;
  (if q : bool then (r <- pdo (FSleep dl) ;; Ret (Some r)) else Ret None).
(** the loop [do ... while (m_cond == prev_cond)]: true when it ended with ETIMEDOUT.  S 651-662, 698-713 *)
Definition cond_loop (i k : nat) (pc : Z) (dl : option Z) : pprog bool :=
  loop tt (fun _ =>
    r <- cond_sleep i k pc dl ;;
    match r with
    | None => Ret (inr false)
    | Some TimedOut => Ret (inr true)
    | Some _ => c <- pdo (CLoad i k) ;; (if (c : Z) =? pc then Ret (inl tt) else Ret (inr false))
    end).
(** the version without futex_wait_until: S 718-747 *)
Definition cond_loop_rel (req : Z -> Z -> Z) (i k : nat) (pc dl : Z) : pprog bool :=
  now <- pdo Now ;;
  loop (now : Z) (fun now =>
    let nsec := dl - now in
    if nsec <=? 0 then Ret (inr true)
    else
      (start <- pdo Now ;;                       (* the system starts counting when it is called *)
       cond_sleep i k pc (Some ((start : Z) + req start nsec)) ;;;
       now <- pdo Now ;;
       c <- pdo (CLoad i k) ;;
       if (c : Z) =? pc then Ret (inl (now : Z)) else Ret (inr false))).
(** pthread_cond_wait, SleepConditionVariableSRW: S 434-437, 885-889 *)
Definition os_wait (i k : nat) (dl : option Z) : pprog wake :=
  pdo (CvWait i k) ;;;
  r <- pdo (FSleep dl) ;;
  pdo (OsLock i) ;;;
  Ret r.
(** pthread [wait_for], S 484-505; SRW [wait_for], S 891-912; [req]: what the system is asked for *)
Definition os_wait_for (req : Z -> Z -> Z) (i k : nat) (d : Z) : pprog bool :=
  now <- pdo Now ;;
  r <- os_wait i k (Some ((now : Z) + req now d)) ;;
  Ret (match r with TimedOut => true | _ => false end).

Section Pool.
  Variable pl : platform.
  Notation lk := (pl_lock pl).

  (** [lock_pool::wait], S 1187-1204 *)
  Definition pool_wait (i : nat) (ws : option nat) : pprog unit :=
    match ws with
    | None => release lk i ;;; pdo Pause ;;; acquire lk i
    | Some k =>
        match lk with
        | LFutex => pc <- futex_enter i k ;; cond_loop i k pc None ;;; futex_leave i k
        | _ => os_wait i k None ;;; Ret tt
        end
    end.
  (** [lock_pool::wait_until], S 1206-1228; pthread S 440-481.  In the loop of the pthread version the time asked for is
      taken to be what is left: it is less only when the deadline is beyond the largest time_t (S 477). *)
  Definition pool_wait_until (i : nat) (ws : option nat) (dl : Z) : pprog bool :=
    match ws with
    | None =>
        release lk i ;;; pdo Pause ;;; acquire lk i ;;;
        now <- pdo Now ;; Ret (dl <=? (now : Z))
    | Some k =>
        match lk with
        | LFutex =>
            pc <- futex_enter i k ;;
            r <- (if pl_bitset pl then cond_loop i k pc (Some dl) else cond_loop_rel (pl_req pl) i k pc dl) ;;
            futex_leave i k ;;; Ret r
        | _ =>
            if pl_bitset pl then r <- os_wait i k (Some dl) ;; Ret (match r with TimedOut => true | _ => false end)
            else loop tt (fun _ =>
                   now <- pdo Now ;;
                   if dl <=? (now : Z) then Ret (inr true)
                   else b <- os_wait_for (fun _ d => d) i k (dl - (now : Z)) ;; (if b : bool then Ret (inl tt) else Ret (inr false)))
        end
    end.
  (** [lock_pool::wait_for], S 1231-1250 *)
  Definition pool_wait_for (i : nat) (ws : option nat) (d : Z) : pprog bool :=
    match ws with
    | None =>
        start <- pdo Now ;;
        release lk i ;;; pdo Pause ;;; acquire lk i ;;;
        now <- pdo Now ;; Ret (d <=? (now : Z) - (start : Z))
    | Some k =>
        match lk with
        | LFutex =>
            pc <- futex_enter i k ;;
            start <- pdo Now ;;
            r <- cond_sleep i k pc (Some ((start : Z) + pl_req pl start d)) ;;
            futex_leave i k ;;; Ret (match r with Some TimedOut => true | _ => false end)
        | _ => os_wait_for (pl_req pl) i k d
        end
    end.
  (** [lock_pool::notify_one], [notify_all], S 1252-1272; futex S 796-822, OS S 374-382, 914-925 *)
  Definition pool_notify (i : nat) (z : Z) (all : bool) : pprog unit :=
    ws <- pdo (WlFind i z) ;;
    match ws with
    | None => Ret tt
    | Some k =>
        match lk with
        | LFutex =>
            pdo (CAdd i k) ;;;
            c <- pdo (WcGet i k) ;;
            (if 0 <? (c : Z) then (pdo (FRequeue i k all) ;;; pdo (MOr i contended Relaxed)) else Ret tt)
        | _ => pdo (FWake (FC i k) all) ;;; Ret tt
        end
    end.

  (** ** Lock-based objects: D/core_operations_emulated.hpp, D/extra_ops_emulated.hpp, D/fp_ops_emulated.hpp,
      D/extra_fp_ops_emulated.hpp.  [s] is the storage, read and written byte by byte. *)
  Section Emulated.
    Variable d : odesc.
    Notation i := (lock_of pl d).
    Notation w := (d_bits d).

    Fixpoint rd_from (z : Z) (n : nat) : pprog (list Z) :=
      match n with
      | O => Ret []
      | S n' => b <- pdo (BRd i z) ;; r <- rd_from (z + 1) n' ;; Ret ((b : Z) :: r)
      end.
    Fixpoint wr_from (z : Z) (l : list Z) : pprog unit :=
      match l with
      | [] => Ret tt
      | b :: r => pdo (BWr i z b) ;;; wr_from (z + 1) r
      end.
    Definition rd : pprog Z := l <- rd_from (d_addr d) (d_size d) ;; Ret (number (d_be d) l).
    Definition wr (v : Z) : pprog unit := wr_from (d_addr d) (bytes (d_be d) (d_size d) v).

    (** the bodies, under the lock *)
    Definition emu_body (o : iop) : pprog iret :=
      match o with
      | Store v => wr v ;;; Ret RUnit                                          (* core 69-74 *)
      | Load => v <- rd ;; Ret (RVal v)                                        (* core 76-81 *)
      | Exchange v => old <- rd ;; wr v ;;; Ret (RVal old)                     (* core 103-111 *)
      | CasStrong e v | CasWeak e v =>                                         (* core 113-143 *)
          old <- rd ;;
          (if old =? e then (wr v ;;; Ret (RCas true old)) else Ret (RCas false old))
      | Rmw Fetch (Bin b v) =>                                                 (* core 83-101, 145-173 *)
          old <- rd ;; s <- rd ;; wr (wrap w (bin_apply b s v)) ;;; Ret (RVal old)
      | Rmw Fetch (Un u) =>                                                    (* extra 44-52, 140-148 *)
          old <- rd ;; wr (wrap w (un_apply u old)) ;;; Ret (RVal old)
      | Rmw Result (Bin b v) =>                                                (* extra 64-130 *)
          new <- rd ;; wr (wrap w (bin_apply b new v)) ;;; Ret (RVal (wrap w (bin_apply b new v)))
      | Rmw Result (Un u) =>                                                   (* extra 54-62, 150-158 *)
          s <- rd ;; wr (wrap w (un_apply u s)) ;;; Ret (RVal (wrap w (un_apply u s)))
      | Rmw Opaque (Bin b v) =>                                                (* extra 160-192: fetch_* *)
          old <- rd ;; s <- rd ;; wr (wrap w (bin_apply b s v)) ;;; Ret RUnit
      | Rmw Opaque (Un u) => old <- rd ;; wr (wrap w (un_apply u old)) ;;; Ret RUnit
      | Rmw Test (Bin b v) =>                                                  (* extra 194-227: !!op *)
          new <- rd ;; wr (wrap w (bin_apply b new v)) ;;; Ret (RBool (negb (wrap w (bin_apply b new v) =? 0)))
      | Rmw Test (Un u) =>
          s <- rd ;; wr (wrap w (un_apply u s)) ;;; Ret (RBool (negb (wrap w (un_apply u s) =? 0)))
      | BitTest k b =>                                                         (* extra 229-251 *)
          let mask := wrap w (Z.shiftl 1 b) in
          old <- rd ;; s <- rd ;;
          wr (wrap w (match k with
                      | BSet => Z.lor s mask
                      | BReset => Z.land s (wrap w (Z.lnot mask))
                      | BCompl => Z.lxor s mask
                      end)) ;;; Ret (RBool (negb (Z.land old mask =? 0)))
      end.
    (** floating-point operations: fp 33-52, extra fp 33-113 *)
    Definition emu_upd (f : form) (g : Z -> Z) : pprog iret :=
      old <- rd ;; wr (g old) ;;; Ret (report f old (g old)).

    (** D/lock_pool.hpp 94-122: [scoped_lock] *)
    Definition scoped {R} (body : pprog R) : pprog R :=
      acquire lk i ;;; r <- body ;; release lk i ;;; Ret r.
    (** D/lock_pool.hpp 124-144: [scoped_wait_state]; the destructor frees the record, then unlocks *)
    Definition scoped_wait {R} (body : option nat -> pprog R) : pprog R :=
      acquire lk i ;;;
      ws <- pdo (WlBegin i (d_addr d)) ;;
      r <- body ws ;;
      (match ws with Some k => pdo (WlEnd i k) | None => Ret tt end) ;;;
      release lk i ;;; Ret r.

    (** ** Waiting, for lock-based objects ([ld] = read under the lock) and for lock-free ones ([ld] = load).
        D/wait_ops_emulated.hpp 57-71, D/wait_ops_generic.hpp 62-77 *)
    Definition wait_body (ld : pprog Z) (old : Z) (ws : option nat) : pprog aret :=
      new <- ld ;;
      loop (new : Z) (fun new =>
        if new =? old then (pool_wait i ws ;;; new <- ld ;; Ret (inl (new : Z)))
        else Ret (inr (RWaited new false))).
    (** wait_until_fallback from the first comparison on, [new] having been read: emulated 87-103, generic
        94-110 *)
    Definition fallback_from (ld : pprog Z) (old limit now new : Z) (ws : option nat) : pprog aret :=
      loop (new, now) (fun '(new, now) =>
        if new =? old then
          let nsec := limit - now in
          if nsec <=? 0 then Ret (inr (RWaited new true))
          else
            (pool_wait_for i ws nsec ;;;
             now <- pdo Now ;;
             new <- ld ;; Ret (inl ((new : Z), (now : Z))))
        else Ret (inr (RWaited new false))).
    (** wait_until_abs_timeout from there on: emulated 122-143, generic 129-150; [tv_sec >= 0] for
        a normalised timespec is [limit >= 0] *)
    Definition abs_from (ld : pprog Z) (old limit new : Z) (ws : option nat) : pprog aret :=
      if 0 <=? limit then
        loop (new : Z) (fun new =>
          if new =? old then
            (timed_out <- pool_wait_until i ws limit ;;
             new <- ld ;;
             if timed_out : bool then Ret (inr (RWaited (new : Z) ((new : Z) =? old))) else Ret (inl (new : Z)))
          else Ret (inr (RWaited new false)))
      else Ret (RWaited new (new =? old)).

    (** D/wait_ops_emulated.hpp 145-210: which function a timed wait calls (no POSIX clocks on Windows) *)
    Definition sys_clock (k : tkind) : bool :=
      match k, lk with UntilSys, LSrw => false | UntilSys, _ => true | _, _ => false end.
    Definition emu_timed (k : tkind) (old limit : Z) : pprog aret :=
      if sys_clock k then scoped_wait (fun ws => new <- rd ;; abs_from rd old limit new ws)
      else
        (now <- pdo Now ;;
         let timeout := match k with WaitFor => (now : Z) + limit | _ => limit end in
         scoped_wait (fun ws => new <- rd ;; fallback_from rd old timeout (now : Z) new ws)).
    (** the exit handler, S 961-971: one lock after the other *)
    Fixpoint exit_from (n : nat) : pprog unit :=
      match n with
      | O => Ret tt
      | S m => exit_from m ;;; acquire lk m ;;; pdo (WlCleanup m) ;;; release lk m
      end.
    (** calls that concern no object; the fence: S 1275-1283 *)
    Definition fence_prog : pprog aret :=
      let j := Z.to_nat (get_lock_index pl 0) in acquire lk j ;;; release lk j ;;; Ret (RI RUnit).
    Definition exit_prog : pprog aret := exit_from (Z.to_nat (lock_pool_size pl)) ;;; Ret (RI RUnit).
    Definition notify_prog (all : bool) : pprog aret :=
      scoped (pool_notify i (d_addr d) all ;;; Ret (RI RUnit)).

    (** a lock-based object *)
    Definition emu_prog (o : aop) : pprog aret :=
      match o with
      | AData o => scoped (r <- emu_body o ;; Ret (RI r))
      | AUpd f g => scoped (r <- emu_upd f g ;; Ret (RI r))
      | AWait old => scoped_wait (wait_body rd old)
      | ATimed k old limit => emu_timed k old limit
      | ANotify all => notify_prog all
      | AFence => fence_prog
      | AExit => exit_prog
      end.

    (** ** Lock-free objects, [a] being the number of the object *)
    Variable a : nat.
    Definition ld : pprog Z := r <- pdo (ACell a w Load) ;; Ret (match r : iret with RVal v => v | _ => 0 end).

    (** D/wait_ops_generic.hpp 62-230, without inter-process support.  The timed versions do not load again after
        registering. *)
    Definition pool_timed (k : tkind) (old limit : Z) : pprog aret :=
      if sys_clock k then
        (new <- ld ;;
         if new =? old then scoped_wait (fun ws => abs_from ld old limit new ws) else Ret (RWaited new false))
      else
        (now <- pdo Now ;;
         let timeout := match k with WaitFor => (now : Z) + limit | _ => limit end in
         new <- ld ;;
         if new =? old then scoped_wait (fun ws => fallback_from ld old timeout (now : Z) new ws)
         else Ret (RWaited new false)).
    Definition pool_wait_prog (old : Z) : pprog aret :=
      new <- ld ;;
      if new =? old then scoped_wait (wait_body ld old) else Ret (RWaited new false).

    (** D/wait_ops_generic.hpp 255-369, inter-process: polling; [n]: what is left of fast_loop_count *)
    Fixpoint poll_fast (n : nat) (old : Z) (k : pprog aret) : pprog aret :=
      match n with
      | O => k
      | S n' => pdo Pause ;;; new <- ld ;; (if new =? old then poll_fast n' old k else Ret (RWaited new false))
      end.
    Definition poll_wait (old : Z) : pprog aret :=
      new <- ld ;;
      if new =? old then
        poll_fast 16 old
          (loop tt (fun _ => pdo Pause ;;; new <- ld ;; (if new =? old then Ret (inl tt) else Ret (inr (RWaited new false)))))
      else Ret (RWaited new false).
    Fixpoint poll_fast_timed (n : nat) (old limit now : Z) (k : Z -> pprog aret) : pprog aret :=
      match n with
      | O => k now
      | S n' =>
          if 0 <=? now - limit then Ret (RWaited old true)
          else
            (pdo Pause ;;;
             now <- pdo Now ;;
             new <- ld ;;
             if new =? old then poll_fast_timed n' old limit (now : Z) k else Ret (RWaited new false))
      end.
    Definition poll_timed (k : tkind) (old limit : Z) : pprog aret :=
      now <- pdo Now ;;
      let limit := match k with WaitFor => (now : Z) + limit | _ => limit end in
      new <- ld ;;
      if new =? old then
        poll_fast_timed 16 old limit (now : Z) (fun now =>
          loop (now : Z) (fun now =>
            if 0 <=? now - limit then Ret (inr (RWaited old true))
            else
              (pdo Pause ;;;
               now <- pdo Now ;;
               new <- ld ;;
               if new =? old then Ret (inl (now : Z)) else Ret (inr (RWaited new false)))))
      else Ret (RWaited new false).

    (** D/wait_ops_futex.hpp 113-124, 126-173, 177-222, 280-342; the ENOSYS branches are left out.
        The other native waits have the same shape: D/wait_ops_freebsd_umtx.hpp 84-273 (275-347, without
        UMTX_ABSTIME: [pl_bitset] false); D/wait_ops_windows.hpp 61-138, D/wait_ops_darwin_ulock.hpp 82-168 and
        D/wait_ops_dragonfly_umtx.hpp 51-125 ([pl_bitset] false, the 'fallback' being all there is) *)
    Definition native_sleep (old : Z) (dl : option Z) : pprog (option wake) :=
      q <- pdo (FWait (FO a) old) ;; (if q : bool then (r <- pdo (FSleep dl) ;; Ret (Some r)) else Ret None).
    Definition native_wait (old : Z) : pprog aret :=
      new <- ld ;;
      loop (new : Z) (fun new =>
        if new =? old then (native_sleep old None ;;; new <- ld ;; Ret (inl (new : Z)))
        else Ret (inr (RWaited new false))).
    Definition native_fallback (old limit now : Z) : pprog aret :=
      new <- ld ;;
      loop (new, now) (fun '(new, now) =>
        if new =? old then
          let left := units pl (limit - now) in
          if left <=? 0 then Ret (inr (RWaited new true))
          else
            (start <- pdo Now ;;
             native_sleep old (Some ((start : Z) + pl_req pl start left)) ;;;
             now <- pdo Now ;;
             new <- ld ;; Ret (inl ((new : Z), (now : Z))))
        else Ret (inr (RWaited new false))).
    Definition native_abs (old limit : Z) : pprog aret :=
      new <- ld ;;
      loop (new : Z) (fun new =>
        if new =? old then
          (r <- native_sleep old (Some limit) ;;
           new <- ld ;;
           match r with
           | Some TimedOut => Ret (inr (RWaited (new : Z) ((new : Z) =? old)))
           | _ => Ret (inl (new : Z))
           end)
        else Ret (inr (RWaited new false))).
    Definition native_timed (k : tkind) (old limit : Z) : pprog aret :=
      match k with
      | UntilSys =>
          if pl_bitset pl then
            (if 0 <=? limit then native_abs old limit
             else new <- ld ;; Ret (RWaited (new : Z) ((new : Z) =? old)))
          else now <- pdo Now ;; native_fallback old limit (now : Z)
      | UntilOther => now <- pdo Now ;; native_fallback old limit (now : Z)
      | WaitFor =>
          if pl_bitset pl && (0 <=? limit) then now <- pdo Now ;; native_abs old ((now : Z) + limit)
          else now <- pdo Now ;; native_fallback old ((now : Z) + limit) (now : Z)
      end.

    Definition free_prog (o : aop) : pprog aret :=
      match o with
      | AData o => r <- pdo (ACell a w o) ;; Ret (RI r)
      | AUpd f g => r <- pdo (ACellUpd a f g) ;; Ret (RI r)
      | AWait old =>
          match d_wait d with WPoll => poll_wait old | WFutex => native_wait old | _ => pool_wait_prog old end
      | ATimed k old limit =>
          match d_wait d with WPoll => poll_timed k old limit | WFutex => native_timed k old limit | _ => pool_timed k old limit end
      | ANotify all =>
          match d_wait d with
          | WPoll => pdo Pause ;;; Ret (RI RUnit)     (* generic 371-377: nothing; the call itself takes a step *)
          | WFutex => pdo (FWake (FO a) all) ;;; Ret (RI RUnit)            (* futex 344-353 *)
          | _ => notify_prog all
          end
      | AFence => fence_prog
      | AExit => exit_prog
      end.
    Definition obj_prog (o : aop) : pprog aret := if d_locked d then emu_prog o else free_prog o.
  End Emulated.

  (** ** The whole program: objects [D], calls [(object, operation)] *)
  Definition pool_impl (D : nat -> odesc) (c : nat * aop) : pprog aret := obj_prog (D (fst c)) (fst c) (snd c).

  (** Initial memory: the locks free, nobody waiting, the storage of every object holding [v].
      The clock starts anywhere after the epoch. *)
  Definition bytes_at (b : Z -> Z) (z : Z) (n : nat) : list Z := map (fun j => b (z + Z.of_nat j)) (seq 0 n).
  Definition shows (D : nat -> odesc) (m : pmem) (a : nat) (v : Z) : Prop :=
    if d_locked (D a) then bytes_at (byt m) (d_addr (D a)) (d_size (D a)) = bytes (d_be (D a)) (d_size (D a)) v
    else cel m a = v.
  Definition pool_start (D : nat -> odesc) (v : nat -> Z) (m : pmem) : Prop :=
    (forall i, mx m i = 0 /\ own m i = None /\ wl m i = wlist0 /\ unl m i = 0) /\
    (forall i k, cnd m i k = 0 /\ wct m i k = 0 /\ ntf m i k = 0) /\
    (forall a, shows D m a (v a)) /\ slp m = [] /\ 0 <= clk m /\ fault m = false.

  (** objects do not overlap, have a size, and lie in the address space *)
  Definition layout_ok (D : nat -> odesc) : Prop :=
    (forall a, (0 < d_size (D a))%nat /\ 0 < d_align (D a) /\ 0 <= d_addr (D a)) /\
    forall a b, a <> b -> d_addr (D a) + Z.of_nat (d_size (D a)) <= d_addr (D b) \/
                          d_addr (D b) + Z.of_nat (d_size (D b)) <= d_addr (D a).
  Definition platform_ok : Prop :=
    0 <= pl_log2 pl <= 16 /\ 0 < pl_malloc pl.

  Definition pool_run (D : nat -> odesc) (m : pmem) (l : list (sched fate (nat * aop))) :=
    run (pexec (pl_search pl) (pl_init pl)) (pool_impl D) (start m) l.
End Pool.
