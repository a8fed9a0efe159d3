(** * The layers of the lock pool, as text

    Each layer runs the functions of a class of PoolTable.v; what it calls outside the class is the layer below.  At
    the bottom are the system calls and the operations on the futex words. *)
From Coq Require Import ZArith List Bool String.
From Verif Require Import SpecInt SpecBytes SpecPool Order Conv Prog FindModel RecordsModel PoolModel PoolText PoolTable.
Import ListNotations.
Local Open Scope string_scope.
Local Open Scope Z_scope.
Local Open Scope prog_scope.

Definition done {X} (v : pval) : X -> pval * list pval := fun _ => (v, []).
Definition is (f g : string) : bool := String.eqb f g.

(** a system call that puts the thread to sleep on [f] while the word is [v]: 0, or an error number; the errors other
    than EAGAIN, EINTR and ETIMEDOUT are left out (man futex) *)
Definition sys_sleep (f : fut) (v : Z) (dl : option Z) : pprog pval :=
  q <- pdo (FWait f v) ;;
  (if q : bool then
     (r <- pdo (FSleep dl) ;;
      Ret (match r : wake with Woken => PZ 0 | Interrupted => PErr "EINTR" | TimedOut => PErr "ETIMEDOUT" end))
   else Ret (PErr "EAGAIN")).
(** mutex, condition variable and futex operations: D/futex.hpp, pthread, winapi; operations on 32-bit words are
    those of the lock-free integers (C01-C12) *)
Definition system (f : string) (vs : list pval) : option ans :=
  match vs with
  | [] =>
      if is f "thread_pause" || is f "wait_some" then Some (Ans (pdo Pause) (done PU))
      else if is f "Clock::now" || is f "steady_clock::now" then Some (Ans (pdo Now) (fun t : Z => (PZ t, [])))
      else None
  | [PFut (FM i); PO o] =>
      if is f "futex_operations::load" then Some (Ans (pdo (MLoad i o)) (fun x : Z => (PZ x, []))) else None
  | [PFut (FC i k); PO o] =>
      if is f "futex_operations::load" then Some (Ans (pdo (CLoad i k)) (fun x : Z => (PZ x, []))) else None
  | [PFut (FM i); PZ e; PZ n; PO so; PO fo] =>
      (* the expected value is replaced when the exchange fails *)
      let reply (x : bool * Z) := (PB (fst x), [PZ (if fst x then e else snd x)]) in
      if is f "futex_operations::compare_exchange_strong" then Some (Ans (pdo (MCas false i e n so fo)) reply)
      else if is f "futex_operations::compare_exchange_weak" then Some (Ans (pdo (MCas true i e n so fo)) reply)
      else None
  | [PFut (FC i k); PZ v; PO _] =>
      if is f "futex_extra_operations::opaque_add" && (v =? 1) then Some (Ans (pdo (CAdd i k)) (done PU)) else None
  | [PFut (FM i); PZ v; PO o] =>
      if is f "futex_extra_operations::opaque_or" then Some (Ans (pdo (MOr i v o)) (done PU)) else None
  | [PFut g; PZ v; PU] =>
      if is f "futex_wait" then Some (Ans (sys_sleep g v None) (fun v => (v, []))) else None
  | [PFut g; PU] =>
      if is f "futex_signal" then Some (Ans (pdo (FWake g false)) (fun n : nat => (PZ (Z.of_nat n), [])))
      else if is f "futex_broadcast" then Some (Ans (pdo (FWake g true)) (fun n : nat => (PZ (Z.of_nat n), [])))
      else None
  | [PFut (FC i k); PFut (FM j); PU; PZ 0; PZ 1] =>
      if is f "futex_requeue" && Nat.eqb i j then Some (Ans (pdo (FRequeue i k false)) (done PU)) else None
  | [PFut (FC i k); PFut (FM j); PU; PZ 0] =>      (* the default: as many as there are *)
      if is f "futex_requeue" && Nat.eqb i j then Some (Ans (pdo (FRequeue i k true)) (done PU)) else None
  | [PRec i k] => if is f "m_waiter_count" then Some (Ans (pdo (WcGet i k)) (fun x : Z => (PZ x, []))) else None
  | [PRec i k; PX v] => if is f "m_waiter_count=" then Some (Ans (pdo (WcSet i k v)) (done PU)) else None
  | [PFut (FM i)] =>
      if is f "pthread_mutex_trylock" then Some (Ans (pdo (OsTry i)) (fun b : bool => (PZ (if b then 0 else 16), [])))
      else if is f "pthread_mutex_lock" then Some (Ans (pdo (OsLock i)) (done (PZ 0)))
      else if is f "pthread_mutex_unlock" then Some (Ans (pdo (OsUnlock i)) (done (PZ 0)))
      else if is f "AcquireSRWLockExclusive" then Some (Ans (pdo (OsLock i)) (done PU))
      else if is f "ReleaseSRWLockExclusive" then Some (Ans (pdo (OsUnlock i)) (done PU))
      else None
  | [PFut (FC i k)] =>
      if is f "pthread_cond_signal" then Some (Ans (pdo (FWake (FC i k) false)) (done (PZ 0)))
      else if is f "pthread_cond_broadcast" then Some (Ans (pdo (FWake (FC i k) true)) (done (PZ 0)))
      else if is f "WakeConditionVariable" then Some (Ans (pdo (FWake (FC i k) false)) (done PU))
      else if is f "WakeAllConditionVariable" then Some (Ans (pdo (FWake (FC i k) true)) (done PU))
      else None
  | [PFut (FC i k); PFut (FM j)] =>
      if is f "pthread_cond_wait" && Nat.eqb i j then Some (Ans (os_wait i k None) (done (PZ 0))) else None
  | [PFut (FC i k); PFut (FM j); PNil; PZ 0] =>    (* the time-out INFINITE *)
      if is f "SleepConditionVariableSRW" && Nat.eqb i j then Some (Ans (os_wait i k None) (done (PB true))) else None
  | _ => None
  end.

Section Layers.
  Variables (pl : platform) (d : odesc).
  Notation lk := (pl_lock pl).

  (** template parameters and configuration *)
  Definition conf (long posix : bool) (s : string) : option pval :=
    if is s "futex_private_flag" then Some PU
    else if is s "infinite" then Some PNil
    else if is s "clock_id" then Some PU
    else if is s "lock_pool_size" then Some (PZ (lock_pool_size pl))
    else if is s "malloc_alignment" then Some (PZ (pl_malloc pl))
    else if is s "Alignment" then Some (PZ (d_align d))
    else if is s "LongLock" then Some (PB long)
    else if is s "has_posix_clock_traits" then Some (PB posix)
    else if is s "!defined(BOOST_WINDOWS)" then Some (PB (match lk with LSrw => false | _ => true end))
    else if is s "BOOST_ATOMIC_THREAD_FENCE == 2" then Some (PB false)
    else None.
  Notation cfg := (conf false false).
  Definition no_iter (s : pstmt) (E E1 : env) : pprog (env + exit) := stuck.      (* classes without loops *)

  (** [lock_state] *)
  Definition lock_iter := iter pl d cfg system 1.
  Definition lock_fns : list pfn :=
    match lk with LPthread => pthread_lock_fns | LFutex => futex_lock_fns | LSrw => srw_lock_fns end.
  Definition lock_text (f : string) (i : nat) : pprog unit :=
    runf pl d cfg system lock_iter lock_fns [("this", (TO, PLk i))] f [] (fun _ _ _ => Ret tt).

  (** [wait_state]; [state] is the lock *)
  Definition cond_fns : list pfn :=
    match lk with LPthread => pthread_cond_fns | LFutex => futex_cond_fns | LSrw => srw_cond_fns end.
  Definition locks (f : string) (vs : list pval) : option ans :=
    match vs with
    | [PLk i] =>
        if is f ".short_lock" then Some (Ans (lock_text "short_lock" i) (done PU))
        else if is f ".long_lock" then Some (Ans (lock_text "long_lock" i) (done PU))
        else if is f ".unlock" then Some (Ans (lock_text "unlock" i) (done PU))
        else None
    | _ => system f vs
    end.
  Definition cond_iter := iter pl d cfg locks 1.
  Definition cond_text (f : string) (i k : nat) : pprog unit :=
    runf pl d cfg locks cond_iter cond_fns [("this", (TO, PRec i k))] f [PLk i] (fun _ _ _ => Ret tt).

  (** the kinds of results *)
  Definition as_lock (v : pval) : pprog nat := match v with PLk i => Ret i | _ => stuck end.
  Definition as_bool (v : pval) : pprog bool := match v with PB b => Ret b | _ => stuck end.
  Definition as_num (v : pval) : pprog Z := match v with PZ z => Ret z | _ => stuck end.
  Definition as_void (v : pval) : pprog unit := Ret tt.
  Definition a_lock (i : nat) : pval * list pval := (PLk i, []).
  Definition a_bool (b : bool) : pval * list pval := (PB b, []).
  Definition a_num (z : Z) : pval * list pval := (PZ z, []).
  Definition handle (i : nat) (ws : option nat) : pval := match ws with Some k => PRec i k | None => PNil end.
  Definition a_record (i : nat) (ws : option nat) : pval := match ws with Some k => PRec i k | None => PNil end.
  Definition a_state (x : nat * option nat) : pval * list pval := (PPair (PLk (fst x)) (handle (fst x) (snd x)), []).

  (** the functions of the namespace lock_pool.  The timed functions of a wait record are those of PoolModel.v. *)
  Definition records (f : string) (vs : list pval) : option ans :=
    match vs with
    | [PRec i k; PLk j] =>
        if Nat.eqb i j then
          if is f ".wait" then Some (Ans (cond_text "wait" i k) (done PU))
          else if is f ".notify_one" then Some (Ans (cond_text "notify_one" i k) (done PU))
          else if is f ".notify_all" then Some (Ans (cond_text "notify_all" i k) (done PU))
          else None
        else None
    | [PRec i k; PLk j; PU; PZ t] =>
        if is f ".wait_until" && Nat.eqb i j then Some (Ans (pool_wait_until pl i (Some k) t) (fun b : bool => (PB b, [])))
        else None
    | [PRec i k; PLk j; PZ t] =>
        if is f ".wait_for" && Nat.eqb i j then Some (Ans (pool_wait_for pl i (Some k) t) (fun b : bool => (PB b, [])))
        else None
    | [PLk i; PAddr] =>
        if is f ".m_wait_states.find" then
          Some (Ans (pdo (WlFind i (d_addr d))) (fun r : option nat => (a_record i r, [])))
        else None
    | [PU; PZ _] =>
        if is f "clock_gettime" then Some (Ans (pdo Now) (fun t : Z => (PZ 0, [PZ t]))) else None
    | _ => locks f vs
    end.
  Definition pool_text {A} (f : string) (vs : list pval) (k : pval -> pprog A) : pprog A :=
    runf pl d cfg records no_iter pool_fns [] f vs (fun v _ _ => k v).

  (** lock_pool:: functions as seen from outside; [allocate_wait_state] and [free_wait_state] (S 1155-1185) are
      the actions WlBegin and WlEnd: RecordsModel.v *)
  Definition pool_api (f : string) (vs : list pval) : option ans :=
    if is f "lock_pool::allocate_wait_state" then
      match vs with
      | [PLk i; PAddr] =>
          Some (Ans (pdo (WlBegin i (d_addr d))) (fun r : option nat => (a_record i r, [])))
      | _ => None
      end
    else if is f "lock_pool::free_wait_state" then
      match vs with
      | [PLk i; PRec j k] => if Nat.eqb i j then Some (Ans (pdo (WlEnd i k)) (done PU)) else None
      | [PLk i; PNil] => Some (Ans (Ret tt) (done PU))
      | _ => None
      end
    else if is f "lock_pool::short_lock" then Some (Ans (pool_text "short_lock" vs as_lock) a_lock)
    else if is f "lock_pool::long_lock" then Some (Ans (pool_text "long_lock" vs as_lock) a_lock)
    else if is f "lock_pool::unlock" then Some (Ans (pool_text "unlock" vs as_void) (done PU))
    else if is f "lock_pool::wait" then Some (Ans (pool_text "wait" vs as_void) (done PU))
    else if is f "lock_pool::wait_until" then Some (Ans (pool_text "wait_until" vs as_bool) a_bool)
    else if is f "lock_pool::wait_for" then Some (Ans (pool_text "wait_for" vs as_bool) a_bool)
    else if is f "lock_pool::notify_one" then Some (Ans (pool_text "notify_one" vs as_void) (done PU))
    else if is f "lock_pool::notify_all" then Some (Ans (pool_text "notify_all" vs as_void) (done PU))
    else None.

  (** [hash_ptr]: the address of the storage as a number *)
  Definition addresses (f : string) (vs : list pval) : option ans :=
    match vs with
    | [PAddr] => if is f "address" then Some (Ans (Ret tt) (done (PZ (d_addr d)))) else None
    | _ => None
    end.
  Definition hash_text : pprog Z := runf pl d cfg addresses no_iter hash_fns [] "hash_ptr" [PAddr] (fun v _ _ => as_num v).

  (** [scoped_lock]: the object is the value of its member *)
  Definition guards (f : string) (vs : list pval) : option ans :=
    match vs with
    | [PAddr] => if is f "lock_pool::hash_ptr" then Some (Ans hash_text a_num) else pool_api f vs
    | _ => pool_api f vs
    end.
  Definition member (x : string) (E : env) : pval := match get x E with Some (_, v) => v | None => PU end.
  Definition slock_new (long : bool) : pprog nat :=
    runf pl d (conf long false) guards no_iter slock_fns [("m_lock", (TO, PU))] "scoped_lock" [PAddr]
      (fun _ _ E => as_lock (member "m_lock" E)).
  Definition slock_do {A} (f : string) (o : pval) (k : pval -> pprog A) : pprog A :=
    runf pl d cfg guards no_iter slock_fns [("m_lock", (TO, o))] f [] (fun v _ _ => k v).

  (** [scoped_wait_state]: the base object and the member *)
  Definition base_lock (f : string) (vs : list pval) : option ans :=
    match vs with
    | [PAddr] =>
        if is f "new scoped_lock< Alignment, true >" then Some (Ans (slock_new true) a_lock) else pool_api f vs
    | [PLk i] =>
        if is f ".get_lock_state" then Some (Ans (slock_do "get_lock_state" (PLk i) as_lock) a_lock)
        else pool_api f vs
    | _ => pool_api f vs
    end.
  Definition swait_new : pprog (nat * option nat) :=
    runf pl d cfg base_lock no_iter swait_fns [("base", (TO, PU)); ("m_wait_state", (TO, PU))] "scoped_wait_state" [PAddr]
      (fun _ _ E => match member "base" E, member "m_wait_state" E with
                    | PLk i, PRec j k => if Nat.eqb i j then Ret (i, Some k) else stuck
                    | PLk i, PNil => Ret (i, None)
                    | _, _ => stuck
                    end).
  Definition swait_do {A} (f : string) (b w : pval) (vs : list pval) (k : pval -> pprog A) : pprog A :=
    runf pl d cfg base_lock no_iter swait_fns [("base", (TO, b)); ("m_wait_state", (TO, w))] f vs (fun v _ _ => k v).
  (** the destructor of the base runs after that of the class *)
  Definition swait_del (b w : pval) : pprog unit :=
    swait_do "~scoped_wait_state" b w [] (fun _ => slock_do "~scoped_lock" b as_void).

  (** what the operations of objects see: guards with short ([long] false) and long locks *)
  Definition scopes (long : bool) (f : string) (vs : list pval) : option ans :=
    match vs with
    | [PAddr] =>
        if is f "new scoped_lock" then Some (Ans (slock_new long) a_lock)
        else if is f "new scoped_wait_state" then Some (Ans swait_new a_state)
        else None
    | [PLk i] =>
        if is f "~scoped_lock" then Some (Ans (slock_do "~scoped_lock" (PLk i) as_void) (done PU))
        else if is f ".get_lock_state" then Some (Ans (slock_do "get_lock_state" (PLk i) as_lock) a_lock)
        else None
    | [PPair b w] =>
        if is f "~scoped_wait_state" then Some (Ans (swait_del b w) (done PU))
        else if is f ".wait" then Some (Ans (swait_do "wait" b w [] as_void) (done PU))
        else None
    | [PPair b w; PU; PZ t] =>
        if is f ".wait_until" then Some (Ans (swait_do "wait_until" b w [PU; PZ t] as_bool) a_bool) else None
    | [PPair b w; PZ t] =>
        if is f ".wait_for" then Some (Ans (swait_do "wait_for" b w [PZ t] as_bool) a_bool) else None
    | [PX t] => if is f "ceil" then Some (Ans (Ret tt) (done (PZ t))) else None   (* the unit of time is the nanosecond *)
    | _ => pool_api f vs
    end.
  (** the clocks and pauses, too *)
  Definition outside (f : string) (vs : list pval) : option ans :=
    match scopes true f vs with Some a => Some a | None => system f vs end.

  (** ** Lock-based objects *)
  Definition core_text {A} (f : string) (vs : list pval) (k : pval -> list pval -> pprog A) : pprog A :=
    runf pl d cfg (scopes false) no_iter core_emulated_fns [] f vs (fun v rs _ => k v rs).
  Definition extra_base (f : string) (vs : list pval) : option ans :=
    let core g := Some (Ans (core_text g vs (fun v _ => as_num v)) a_num) in
    if is f "base_type::fetch_add" then core "fetch_add"
    else if is f "base_type::fetch_sub" then core "fetch_sub"
    else if is f "base_type::fetch_and" then core "fetch_and"
    else if is f "base_type::fetch_or" then core "fetch_or"
    else if is f "base_type::fetch_xor" then core "fetch_xor"
    else scopes false f vs.
  Definition extra_text {A} (f : string) (vs : list pval) (k : pval -> pprog A) : pprog A :=
    runf pl d cfg extra_base no_iter extra_emulated_fns [] f vs (fun v _ _ => k v).

  Definition bin_name (b : binop) : string :=
    match b with Add => "add" | Sub => "sub" | And => "and" | Or => "or" | Xor => "xor" end.
  (** the function of the result form *)
  Definition res_name (b : binop) : string :=
    match b with Add => "add" | Sub => "sub" | And => "bitwise_and" | Or => "bitwise_or" | Xor => "bitwise_xor" end.
  Definition un_name (u : unop) : string := match u with Neg => "negate" | Compl => "complement" end.
  Definition unres_name (u : unop) : string := match u with Neg => "negate" | Compl => "bitwise_complement" end.
  Definition ret_val (v : pval) : pprog iret := match v with PZ z => Ret (RVal z) | _ => stuck end.
  Definition ret_bool (v : pval) : pprog iret := match v with PB b => Ret (RBool b) | _ => stuck end.
  Definition ret_unit (v : pval) : pprog iret := Ret RUnit.
  Definition ret_cas (v : pval) (rs : list pval) : pprog iret :=
    match v, rs with PB b, [PZ z] => Ret (RCas b z) | _, _ => stuck end.

  (** the memory order is not looked at *)
  Notation mo := (PO SeqCst).
  Definition emu_text (o : iop) : pprog iret :=
    match o with
    | Store v => core_text "store" [PZ v; mo] (fun v _ => ret_unit v)
    | Load => core_text "load" [mo] (fun v _ => ret_val v)
    | Exchange v => core_text "exchange" [PZ v; mo] (fun v _ => ret_val v)
    | CasStrong e v => core_text "compare_exchange_strong" [PZ e; PZ v; mo; mo] ret_cas
    | CasWeak e v => core_text "compare_exchange_weak" [PZ e; PZ v; mo; mo] ret_cas
    | Rmw Fetch (Bin b v) => core_text ("fetch_" ++ bin_name b) [PZ v; mo] (fun v _ => ret_val v)
    | Rmw Fetch (Un u) => extra_text ("fetch_" ++ un_name u) [mo] ret_val
    | Rmw Result (Bin b v) => extra_text (res_name b) [PZ v; mo] ret_val
    | Rmw Result (Un u) => extra_text (unres_name u) [mo] ret_val
    | Rmw Opaque (Bin b v) => extra_text ("opaque_" ++ bin_name b) [PZ v; mo] ret_unit
    | Rmw Opaque (Un u) => extra_text ("opaque_" ++ un_name u) [mo] ret_unit
    | Rmw Test (Bin b v) => extra_text (bin_name b ++ "_and_test") [PZ v; mo] ret_bool
    | Rmw Test (Un u) => extra_text (un_name u ++ "_and_test") [mo] ret_bool
    | BitTest k i =>
        extra_text ("bit_test_and_" ++ match k with BSet => "set" | BReset => "reset" | BCompl => "complement" end)
          [PZ i; mo] ret_bool
    end.

  (** ** Waiting and notifying *)
  Variable a : nat.
  (** the lock-free load, and the futex of a lock-free object *)
  Definition object (f : string) (vs : list pval) : option ans :=
    match vs with
    | [PO _] => if is f "base_type::load" then Some (Ans (ld d a) (fun v : Z => (PZ v, []))) else outside f vs
    | PAddr :: vs => if is f "futex_wait" || is f "futex_signal" || is f "futex_broadcast" then system f (PFut (FO a) :: vs)
                     else outside f (PAddr :: vs)
    | _ => outside f vs
    end.
  Definition wait_fns : list pfn :=
    match d_wait d with WEmulated => wait_emulated_fns | WPool => wait_pool_fns | WPoll => wait_poll_fns | WFutex => wait_futex_fns end.
  Definition ret_waited (v : pval) (rs : list pval) : pprog aret :=
    match v, rs with
    | PZ z, [] => Ret (RWaited z false)
    | PZ z, [PB b] => Ret (RWaited z b)
    | _, _ => stuck
    end.
  Definition wait_iter (posix : bool) := iter pl d (conf true posix) object 1.
  Definition wait_text {A} (posix : bool) (f : string) (vs : list pval) (k : pval -> list pval -> pprog A) : pprog A :=
    runf pl d (conf true posix) object (wait_iter posix) wait_fns [] f vs (fun v rs _ => k v rs).
  Definition timed_text (k : tkind) (old limit : Z) : pprog aret :=
    let vs := [PZ old; PZ limit; mo; PB false] in
    match k with
    | UntilSys => wait_text true "wait_until" vs ret_waited
    | UntilOther => wait_text false "wait_until" vs ret_waited
    | WaitFor => wait_text false "wait_for" vs ret_waited
    end.
  Definition fence_text : pprog aret :=
    runf pl d cfg pool_api no_iter fence_fns [] "thread_fence" [] (fun _ _ _ => Ret (RI RUnit)).

  (** ** An object.  Not in the text: operations of lock-free objects (C60), floating-point operations, the exit
      handler, the timed waits on futexes (lock-free 32-bit objects) *)
  Definition text_prog (o : aop) : pprog aret :=
    match o with
    | AData o => if d_locked d then r <- emu_text o ;; Ret (RI r) else obj_prog pl d a (AData o)
    | AWait old => wait_text false "wait" [PZ old; mo] ret_waited
    | ATimed k old limit =>
        match d_wait d with WFutex => obj_prog pl d a (ATimed k old limit) | _ => timed_text k old limit end
    | ANotify all =>
        let p := wait_text false (if all then "notify_all" else "notify_one") [] (fun _ _ => Ret (RI RUnit)) in
        match d_wait d with WPoll => pdo Pause ;;; p | _ => p end      (* the call itself takes a step *)
    | AFence => fence_text
    | _ => obj_prog pl d a o
    end.
End Layers.
