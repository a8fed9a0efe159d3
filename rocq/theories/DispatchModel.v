(** * The choice of the address search at run time, and the registration of the clean-up.  S is src. *)
From Coq Require Import ZArith List Bool Arith.
From Verif Require Import SpecLin SpecOnce Prog FindModel.
Import ListNotations.
Open Scope Z_scope.

(** the functions [g_find_address] may point to, S/lock_pool.cpp 128-142 *)
Inductive version := VGeneric | VSse2 | VSse41 | VDispatch.

(** BOOST_ATOMIC_DETAIL_X86_USE_RUNTIME_DISPATCH, S/lock_pool.cpp 77-84 *)
Definition below (s limit : simd) : bool :=
  match s, limit with NoSse2, Sse2 | NoSse2, Sse41 | Sse2, Sse41 => true | _, _ => false end.
Definition has_dispatch (b : build) : bool :=
  (with_sse2 b || with_sse41 b) && (wide b && below (baseline b) Sse41 || negb (wide b) && below (baseline b) Sse2).
(** the initial value of [g_find_address], S/lock_pool.cpp 133-142; without vector code there is no such variable and
    the generic version is called, 189-194 *)
Definition initial_version (b : build) : version :=
  if with_sse41 b && wide b && negb (below (baseline b) Sse41) then VSse41
  else if with_sse2 b && negb (wide b) && negb (below (baseline b) Sse2) then VSse2
  else VDispatch.
(** the program compiles: the dispatching function is declared if it is used *)
Definition compiles (b : build) : bool :=
  negb (with_sse2 b || with_sse41 b) || has_dispatch b || match initial_version b with VDispatch => false | _ => true end.

(** ** Actions *)
Inductive dact :=
| ALoadPtr                                  (* relaxed load of [g_find_address], 185 *)
| AStorePtr (v : version)                   (* relaxed store, 175 *)
| ACpuid (eax : Z)                          (* S/cpuid.hpp 34-76 *)
| ACall (v : version) (addr : Z) (addrs : list Z) (size : nat)
| AFlagLoad                                 (* relaxed load of the once flag, 1068 *)
| AFlagExchange (v : Z)                     (* relaxed exchange, 1070 *)
| AAtExit.                                  (* std::atexit(&cleanup_lock_pool), 1071 *)
Definition dresp (a : dact) : Type :=
  match a with
  | ALoadPtr => version
  | AStorePtr _ | AAtExit => unit
  | ACpuid _ => (Z * Z * Z * Z)%type
  | ACall _ _ _ _ => option nat
  | AFlagLoad | AFlagExchange _ => Z
  end.
(** [d_illegal]: some thread has executed an instruction the processor does not have *)
Record dmem := DMem { d_ptr : version; d_flag : Z; d_handlers : nat; d_illegal : bool }.

(** The machine.  A call of one of the searches is one step: the list it reads is protected by a lock.  Files compiled
    for SSE2 or SSE4.1 may use those instructions anywhere. *)
Definition code (b : build) (v : version) : Z -> list Z -> nat -> option nat :=
  match v with
  | VSse2 => if wide b then find_address_sse2_64 else find_address_sse2_32
  | VSse41 => find_address_sse41
  | _ => find_address_generic
  end.
Definition cpuid (c : x86_cpu) (eax : Z) : Z * Z * Z * Z :=
  let '(a, b, x, d) := rest c eax in
  if eax =? 0 then (highest c, b, x, d) else if eax =? 1 then (a, b, features_c c, features_d c) else (a, b, x, d).
Definition lacks (c : x86_cpu) (v : version) : bool :=
  match v with
  | VSse2 => negb ((1 <=? highest c) && Z.testbit (features_d c) 26)
  | VSse41 => negb ((1 <=? highest c) && Z.testbit (features_c c) 19)
  | _ => false
  end.
Definition dexec (b : build) (c : x86_cpu) (t : nat) (a : dact) (m : dmem) (w : unit) : option (dmem * dresp a) :=
  match a return option (dmem * dresp a) with
  | ALoadPtr => Some (m, d_ptr m)
  | AStorePtr v => Some (DMem v (d_flag m) (d_handlers m) (d_illegal m), tt)
  | ACpuid eax => Some (m, cpuid c eax)
  | ACall v addr addrs size =>
      Some (DMem (d_ptr m) (d_flag m) (d_handlers m) (d_illegal m || lacks c v), code b v addr addrs size)
  | AFlagLoad => Some (m, d_flag m)
  | AFlagExchange v => Some (DMem (d_ptr m) v (d_handlers m) (d_illegal m), d_flag m)
  | AAtExit => Some (DMem (d_ptr m) (d_flag m) (S (d_handlers m)) (d_illegal m), tt)
  end.

(** ** Code *)
Notation dprog := (prog dact dresp).
Definition call (v : version) (addr : Z) (addrs : list Z) (size : nat) : dprog (option nat) := do (ACall v addr addrs size).
Section Code.
  Variable b : build.
  (** [find_address_dispatch], S/lock_pool.cpp 146-178 *)
  Definition choose (eax ecx edx : Z) : version :=
    let v := if negb (Z.land edx (Z.shiftl 1 26) =? 0) then VSse2 else VGeneric in
    if with_sse41 b && wide b && negb (Z.land ecx (Z.shiftl 1 19) =? 0) then VSse41 else v.
  Definition install (addr : Z) (addrs : list Z) (size : nat) (v : version) : dprog (option nat) :=
    Do (AStorePtr v) (fun _ => call v addr addrs size).
  Definition dispatch (addr : Z) (addrs : list Z) (size : nat) : dprog (option nat) :=
    if with_sse2 b then
      Do (ACpuid 0) (fun r : Z * Z * Z * Z => let '(eax, _, _, _) := r in
        if 1 <=? eax then
          Do (ACpuid 1) (fun r : Z * Z * Z * Z => let '(eax, _, ecx, edx) := r in install addr addrs size (choose eax ecx edx))
        else install addr addrs size VGeneric)
    else install addr addrs size VGeneric.
  (** [find_address], S/lock_pool.cpp 182-194 *)
  Definition find_address (addr : Z) (addrs : list Z) (size : nat) : dprog (option nat) :=
    if with_sse2 b || with_sse41 b then
      Do ALoadPtr (fun v : version =>
        match v with
        | VDispatch => dispatch addr addrs size
        | _ => call v addr addrs size
        end)
    else call VGeneric addr addrs size.
  (** the beginning of [allocate_buffer], S/lock_pool.cpp 1068-1072 *)
  Definition register_cleanup : dprog (option nat) :=
    Do AFlagLoad (fun f : Z =>
      if f =? 0 then
        Do (AFlagExchange 1) (fun old : Z => if old =? 0 then Do AAtExit (fun _ => Ret None) else Ret None)
      else Ret None).
  Inductive dop := Search (addr : Z) (addrs : list Z) (size : nat) | Register.
  Definition dimpl (o : dop) : dprog (option nat) :=
    match o with Search addr addrs size => find_address addr addrs size | Register => register_cleanup end.
  (** static initialization: S/lock_pool.cpp 133-142, 974 *)
  Definition d_start : dmem := DMem (initial_version b) 0 0 false.
End Code.
Definition d_run (b : build) (c : x86_cpu) (l : list (sched unit dop)) :=
  run (dexec b c) (dimpl b) (start (d_start b)) l.
