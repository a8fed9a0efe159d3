(** * The barriers of the back ends, and the conversions of memory orders. *)
From Coq Require Import ZArith List Bool.
Require Import Verif.Order Verif.Reorder.
Import ListNotations.
Open Scope Z_scope.

(** ** Orders *)

(** memory_order_utils.hpp 29-32: [deduce_failure_order]. *)
Definition deduce_failure_order (order : morder) : morder :=
  match order with AcqRel => Acquire | Release => Relaxed | o => o end.

(** memory_order_utils.hpp 34-39:
    [cas_failure_order_must_not_be_stronger_than_success_order]. *)
Definition check_cas_orders (success failure : morder) : bool :=
  Z.land (code failure) 15 <=? Z.land (code success) 15.

(** atomic_impl.hpp: the assertions of the two-order [compare_exchange_*]: the
    failure order is not release, not acq_rel, and passes the check above. *)
Definition cas_orders_accepted (success failure : morder) : bool :=
  match failure with
  | Release | AcqRel => false
  | _ => check_cas_orders success failure
  end.

(** The __ATOMIC_* constants of GCC (GCC manual, "Built-in Functions for Memory
    Model Aware Atomic Operations"). *)
Definition gcc_constant (o : morder) : Z :=
  match o with
  | Relaxed => 0 | Consume => 1 | Acquire => 2 | Release => 3 | AcqRel => 4 | SeqCst => 5
  end.

(** gcc_atomic_memory_order_utils.hpp 53-58: [convert_memory_order_to_gcc]; the
    argument is the value of the [memory_order], which need not be one of the
    enumerators. *)
Definition convert_memory_order_to_gcc (order : Z) : Z :=
  if order =? code Relaxed then gcc_constant Relaxed
  else if order =? code Consume then gcc_constant Consume
  else if order =? code Acquire then gcc_constant Acquire
  else if order =? code Release then gcc_constant Release
  else if order =? code AcqRel then gcc_constant AcqRel
  else gcc_constant SeqCst.

(** ** Pieces of machine code *)

(** [(order & mask) != 0], the test all the fence functions make. *)
Definition has (o : morder) (mask : Z) : bool := negb (Z.land (code o) mask =? 0).
Definition with_release (o : morder) : bool := has o (code Release).
Definition with_acquire (o : morder) : bool := has o (Z.lor (code Consume) (code Acquire)).

Definition when (b : bool) (c : list item) : list item := if b then c else [].

(** [volatile] accesses and accesses in [volatile] [asm]s without a "memory"
    clobber. *)
Definition ld (l : nat) : item := Access (Acc Rd l false true false false false false).
Definition st (l : nat) : item := Access (Acc Wr l false true false false false false).
(** The same, in an [asm] with a "memory" clobber. *)
Definition ld_asm (l : nat) : item := Access (Acc Rd l true true false false false false).
Definition st_asm (l : nat) : item := Access (Acc Wr l true true false false false false).
(** A read followed by a conditional branch on its value. *)
Definition ld_branch (clob : bool) (l : nat) : item :=
  Access (Acc Rd l clob true false false false true).

Definition full : item := Barrier true true true true.
(** SPARC [membar] masks, Power [lwsync], Arm [dmb ishld]. *)
Definition storestore_loadstore : item := Barrier false true false true.
Definition loadload_loadstore : item := Barrier true true false false.
Definition loadload_loadstore_storestore : item := Barrier true true false true.
Definition lwsync : item := Barrier true true false true.
Definition dmb_ishld : item := Barrier true true false false.

(** An instruction or function that is a full barrier and a read-modify-write:
    a [lock]-prefixed instruction (one [asm] with a "memory" clobber), the
    __sync_* functions, the Interlocked* functions and the kernel's
    [__kuser_cmpxchg]. *)
Definition full_rmw (l : nat) : list item := [full; ld_asm l; st_asm l; full].
(** The same when the comparison fails and nothing is written. *)
Definition full_read (l : nat) : list item := [full; ld_asm l; full].

Fixpoint repeat_code (n : nat) (c : list item) : list item :=
  match n with O => [] | S n => c ++ repeat_code n c end.

(** ** Operations and back ends *)

(** The operations of the back ends.  [n] counts the unsuccessful attempts of a
    loop before the last one; [arith] tells fetch_add and fetch_sub from the
    bitwise operations; [ok] tells a compare_exchange that succeeds from one
    that fails. *)
Inductive op :=
| OStore (n : nat) (o : morder)
| OLoad (n : nat) (o : morder)
| OExchange (n : nat) (o : morder)
| OFetch (arith : bool) (n : nat) (o : morder)
| OCas (ok : bool) (n : nat) (so fo : morder)
| OTestAndSet (n : nat) (o : morder)
| OClear (n : nat) (o : morder).

(** The back ends with hand-written barriers.  [Wide] marks the operations on
    objects twice the size of a register. *)
Inductive backend :=
| X86
| X86Wide (aligned : bool)
| Ppc (ppc64 : bool)
| Arm
| ArmWide
| Aarch32
| Aarch32Wide
| Aarch64 (rcpc : bool)
| Aarch64Wide
| Alpha
| Sparc
| GccSync
| GccSyncWide
| LinuxArm
| Windows
| MsvcX86
| MsvcArm.

(** The processors.  SPARC may run in an order as weak as its RMO, for which
    the back end has its barriers; GCC's __sync functions are used on any
    processor. *)
Definition machine_of (b : backend) : machine :=
  match b with
  | X86 | X86Wide _ | Windows | MsvcX86 => TSO
  | _ => Weak
  end.

(** *** x86 *)

(** core_arch_ops_gcc_x86.hpp 46-50. *)
Definition x86_fence_before (o : morder) : list item := when (with_release o) [Clobber].
(** core_arch_ops_gcc_x86.hpp 52-56. *)
Definition x86_fence_after (o : morder) : list item := when (with_acquire o) [Clobber].
(** core_arch_ops_gcc_x86.hpp 69-114 and, as an example of the sizes, 336-436:
    [lock; xadd], [xchg], [lock; cmpxchg]; the bitwise operations are loops
    around compare_exchange (411-436 and line 93 for fetch_sub). *)
Definition x86_exchange (l : nat) : list item := full_rmw l.
Definition x86_store (l : nat) (o : morder) : list item :=
  if is_seq_cst o then x86_exchange l
  else x86_fence_before o ++ [st l] ++ x86_fence_after o.
Definition x86_load (l : nat) (o : morder) : list item := [ld l] ++ x86_fence_after o.
Definition x86_cas (ok : bool) (l : nat) : list item := if ok then full_rmw l else full_read l.
Definition x86_fetch (arith : bool) (n l : nat) : list item :=
  if arith then full_rmw l
  else [ld l] ++ repeat_code n (x86_cas false l) ++ x86_cas true l.
Definition x86_emit (l : nat) (p : op) : list item :=
  match p with
  | OStore _ o | OClear _ o => x86_store l o
  | OLoad _ o => x86_load l o
  | OExchange _ _ | OTestAndSet _ _ => x86_exchange l
  | OFetch arith n _ => x86_fetch arith n l
  | OCas ok _ _ _ => x86_cas ok l
  end.

(** core_arch_ops_gcc_x86.hpp 450-800 (8 bytes, 32-bit code) and 925-1160 (16
    bytes, AVX): stores other than seq_cst and loads of aligned objects are
    one vector instruction in an [asm] with a "memory" clobber, everything
    else is a [lock; cmpxchg8b/16b], in a loop if it has to succeed, after two
    reads of half the object. *)
Definition x86w_loop (n l : nat) : list item :=
  [ld_asm l; ld_asm l] ++ repeat_code n (x86_cas false l) ++ x86_cas true l.
Definition x86w_store (aligned : bool) (n l : nat) (o : morder) : list item :=
  if negb (is_seq_cst o) && aligned then [st_asm l] else x86w_loop n l.
(** The comparison of the unaligned load may succeed or fail; if it succeeds it
    writes back what it read. *)
Definition x86w_load (aligned : bool) (l : nat) : list item :=
  if aligned then [ld_asm l] else x86_cas true l.
Definition x86w_emit (aligned : bool) (l : nat) (p : op) : list item :=
  match p with
  | OStore n o | OClear n o => x86w_store aligned n l o
  | OLoad _ _ => x86w_load aligned l
  | OExchange n _ | OTestAndSet n _ | OFetch _ n _ => x86w_loop n l
  | OCas ok _ _ _ => x86_cas ok l
  end.

(** *** Power *)

(** ops_gcc_ppc_common.hpp 47-58: [sync] is a full barrier. *)
Definition ppc_fence_before (ppc64 : bool) (o : morder) : list item :=
  if ppc64 then
    if is_seq_cst o then [full] else when (with_release o) [lwsync]
  else when (with_release o) [full].
(** ops_gcc_ppc_common.hpp 60-64. *)
Definition ppc_fence_after (o : morder) : list item := when (with_acquire o) [Isync].
(** core_arch_ops_gcc_ppc.hpp 95-105. *)
Definition ppc_store (ppc64 : bool) (l : nat) (o : morder) : list item :=
  ppc_fence_before ppc64 o ++ [st l].
(** core_arch_ops_gcc_ppc.hpp 107-137: the read, compare, branch and [isync]
    are one [asm] with a "memory" clobber. *)
Definition ppc_load (l : nat) (o : morder) : list item :=
  when (is_seq_cst o) [full] ++
  (if with_acquire o then [ld_branch true l; Isync] else [ld l]).
(** core_arch_ops_gcc_ppc.hpp 139-157, 226-330: [lwarx], [stwcx.] and the
    branch, which depends on both, in an [asm] without a "memory" clobber; a
    failed [stwcx.] writes nothing. *)
Definition ppc_rmw (ppc64 : bool) (n l : nat) (o : morder) : list item :=
  ppc_fence_before ppc64 o ++ repeat_code n [ld_branch false l] ++
  [ld_branch false l; st l] ++ ppc_fence_after o.
(** core_arch_ops_gcc_ppc.hpp 159-224. *)
Definition ppc_cas (ppc64 ok : bool) (n l : nat) (so fo : morder) : list item :=
  ppc_fence_before ppc64 so ++ repeat_code n [ld_branch false l] ++
  (if ok then [ld_branch false l; st l] ++ ppc_fence_after so
   else [ld_branch false l] ++ ppc_fence_after fo).
Definition ppc_emit (ppc64 : bool) (l : nat) (p : op) : list item :=
  match p with
  | OStore _ o | OClear _ o => ppc_store ppc64 l o
  | OLoad _ o => ppc_load l o
  | OExchange n o | OTestAndSet n o | OFetch _ n o => ppc_rmw ppc64 n l o
  | OCas ok n so fo => ppc_cas ppc64 ok n l so fo
  end.

(** *** 32-bit Arm before version 8, and Alpha *)

(** ops_gcc_arm_common.hpp 38-54, with fence_arch_ops_gcc_arm.hpp 47-85
    ([dmb ish] or the co-processor instruction, both with a "memory" clobber);
    core_arch_ops_gcc_alpha.hpp 70-86 ([mb]).  The two back ends have the same
    three fences. *)
Definition arm_fence_before (o : morder) : list item := when (with_release o) [full].
Definition arm_fence_after (o : morder) : list item := when (with_acquire o) [full].
Definition arm_fence_after_store (o : morder) : list item := when (is_seq_cst o) [full].
(** core_arch_ops_gcc_arm.hpp 70-82, core_arch_ops_gcc_alpha.hpp 101-113. *)
Definition arm_store (l : nat) (o : morder) : list item :=
  arm_fence_before o ++ [st l] ++ arm_fence_after_store o.
Definition arm_load (l : nat) (o : morder) : list item := [ld l] ++ arm_fence_after o.
(** core_arch_ops_gcc_arm.hpp 84-104 and 181-285, core_arch_ops_gcc_alpha.hpp
    115-139 and 209-338: load-exclusive / store-exclusive loops in [asm]s
    without a "memory" clobber.  Their branches are not used here. *)
Definition arm_rmw (n l : nat) (o : morder) : list item :=
  arm_fence_before o ++ repeat_code n [ld l] ++ [ld l; st l] ++ arm_fence_after o.
(** core_arch_ops_gcc_arm.hpp 106-179, core_arch_ops_gcc_alpha.hpp 141-207. *)
Definition arm_cas (ok : bool) (n l : nat) (so fo : morder) : list item :=
  arm_fence_before so ++ repeat_code n [ld l] ++
  (if ok then [ld l; st l] ++ arm_fence_after so else [ld l] ++ arm_fence_after fo).
(** The 8-byte operations of Arm (core_arch_ops_gcc_arm.hpp 1134-1410) are the
    same, except that [store] is [exchange]; see [armw_emit]. *)
Definition arm_emit (l : nat) (p : op) : list item :=
  match p with
  | OStore _ o | OClear _ o => arm_store l o
  | OLoad _ o => arm_load l o
  | OExchange n o | OTestAndSet n o | OFetch _ n o => arm_rmw n l o
  | OCas ok n so fo => arm_cas ok n l so fo
  end.

Definition armw_emit (l : nat) (p : op) : list item :=
  match p with
  | OStore n o | OClear n o => arm_rmw n l o
  | _ => arm_emit l p
  end.

(** *** Arm version 8 *)

(** ops_gcc_aarch64_common.hpp 24-43, ops_gcc_aarch32_common.hpp 24-43:
    BOOST_ATOMIC_DETAIL_AARCH64_MO_SWITCH: whether the load and the store
    instruction get their acquire and release forms. *)
Definition mo_switch (o : morder) : bool * bool :=
  match o with
  | Relaxed => (false, false)
  | Consume | Acquire => (true, false)
  | Release => (false, true)
  | _ => (true, true)
  end.
(** [ldaxr], [ldar], [swpa], [casa], [ldadda], ... and [stlxr], [stlr],
    [swpl], ...: acquire and release instructions, the latter kept before a
    later former; all in [asm]s with a "memory" clobber. *)
Definition ld_mo (clob a : bool) (l : nat) : item :=
  Access (Acc Rd l clob true a false a false).
Definition st_mo (b : bool) (l : nat) : item :=
  Access (Acc Wr l true true false b b false).
(** [ldapr]: an acquire that may pass an earlier release. *)
Definition ldapr (l : nat) : item := Access (Acc Rd l true true true false false false).

(** core_arch_ops_gcc_aarch64.hpp 59-76, core_arch_ops_gcc_aarch32.hpp 63-80. *)
Definition a64_store (l : nat) (o : morder) : list item :=
  if with_release o then [st_mo true l] else [st l].
(** core_arch_ops_gcc_aarch64.hpp 78-115, core_arch_ops_gcc_aarch32.hpp 82-102. *)
Definition a64_load (rcpc : bool) (l : nat) (o : morder) : list item :=
  if with_acquire o then
    if rcpc && match o with Consume | Acquire => true | _ => false end
    then [ldapr l] else [ld_mo true true l]
  else [ld l].
(** core_arch_ops_gcc_aarch64.hpp 117-149 and 250-455, core_arch_ops_gcc_aarch32.hpp
    104-127 and 193-320: one instruction or a loop, with the same two letters. *)
Definition a64_rmw (n l : nat) (o : morder) : list item :=
  let '(a, r) := mo_switch o in
  repeat_code n [ld_mo true a l] ++ [ld_mo true a l; st_mo r l].
(** core_arch_ops_gcc_aarch64.hpp 151-248, core_arch_ops_gcc_aarch32.hpp 129-191:
    the success order selects the instructions also when the comparison
    fails. *)
Definition a64_cas (ok : bool) (n l : nat) (so : morder) : list item :=
  let '(a, r) := mo_switch so in
  repeat_code n [ld_mo true a l] ++ [ld_mo true a l] ++ when ok [st_mo r l].
Definition a64_emit (rcpc : bool) (l : nat) (p : op) : list item :=
  match p with
  | OStore _ o | OClear _ o => a64_store l o
  | OLoad _ o => a64_load rcpc l o
  | OExchange n o | OTestAndSet n o | OFetch _ n o => a64_rmw n l o
  | OCas ok n so _ => a64_cas ok n l so
  end.

(** core_arch_ops_gcc_aarch64.hpp 1701-1734, core_arch_ops_gcc_aarch32.hpp
    924-957: stores of double words are loops; the read is not a part of the
    operation. *)
Definition a64w_store (n l : nat) (o : morder) : list item :=
  repeat_code n [ld_mo true false l] ++ [ld_mo true false l; st_mo (with_release o) l].
(** core_arch_ops_gcc_aarch64.hpp 1736-1770: the value read is written back. *)
Definition a64w_load (n l : nat) (o : morder) : list item :=
  repeat_code n [ld_mo true (with_acquire o) l] ++
  [ld_mo true (with_acquire o) l; st_mo false l].
Definition a64w_emit (l : nat) (p : op) : list item :=
  match p with
  | OStore n o | OClear n o => a64w_store n l o
  | OLoad n o => a64w_load n l o
  | OExchange n o | OTestAndSet n o | OFetch _ n o => a64_rmw n l o
  | OCas ok n so _ => a64_cas ok n l so
  end.
(** core_arch_ops_gcc_aarch32.hpp 959-983: [ldaexd] or [ldrexd], in [asm]s
    without a "memory" clobber. *)
Definition a32w_load (l : nat) (o : morder) : list item := [ld_mo false (with_acquire o) l].
Definition a32w_emit (l : nat) (p : op) : list item :=
  match p with
  | OLoad _ o => a32w_load l o
  | _ => a64w_emit l p
  end.

(** *** SPARC *)

(** core_arch_ops_gcc_sparc.hpp 42-48; [membar #Sync] waits for everything. *)
Definition sparc_fence_before (o : morder) : list item :=
  if is_seq_cst o then [full] else when (with_release o) [storestore_loadstore].
(** core_arch_ops_gcc_sparc.hpp 50-56. *)
Definition sparc_fence_after (o : morder) : list item :=
  if is_seq_cst o then [full] else when (with_acquire o) [storestore_loadstore].
(** core_arch_ops_gcc_sparc.hpp 58-62. *)
Definition sparc_fence_after_store (o : morder) : list item := when (is_seq_cst o) [full].
(** core_arch_ops_gcc_sparc.hpp 76-88. *)
Definition sparc_store (l : nat) (o : morder) : list item :=
  sparc_fence_before o ++ [st l] ++ sparc_fence_after_store o.
Definition sparc_load (l : nat) (o : morder) : list item := [ld l] ++ sparc_fence_after o.
(** core_arch_ops_gcc_sparc.hpp 90-109: [cas], in an [asm] with a "memory" clobber. *)
Definition sparc_cas (ok : bool) (l : nat) (so fo : morder) : list item :=
  sparc_fence_before so ++ [ld_asm l] ++
  (if ok then [st_asm l] ++ sparc_fence_after so else sparc_fence_after fo).
(** core_arch_ops_gcc_sparc.hpp 117-129: [swap]. *)
Definition sparc_exchange (l : nat) (o : morder) : list item :=
  sparc_fence_before o ++ [ld_asm l; st_asm l] ++ sparc_fence_after o.
(** core_ops_cas_based.hpp 36-79: a plain read, then compare_exchange with a
    relaxed failure order until it succeeds. *)
Definition sparc_fetch (n l : nat) (o : morder) : list item :=
  [ld l] ++ repeat_code n (sparc_cas false l o Relaxed) ++ sparc_cas true l o Relaxed.
Definition sparc_emit (l : nat) (p : op) : list item :=
  match p with
  | OStore _ o | OClear _ o => sparc_store l o
  | OLoad _ o => sparc_load l o
  | OExchange _ o | OTestAndSet _ o => sparc_exchange l o
  | OFetch _ n o => sparc_fetch n l o
  | OCas ok _ so fo => sparc_cas ok l so fo
  end.

(** *** The __sync functions of GCC *)

(** core_ops_gcc_sync.hpp 79-84, 91-96, with the fences 39-60. *)
Definition sync_store (l : nat) (o : morder) : list item :=
  when (with_release o) [full] ++ [st l] ++ when (is_seq_cst o) [full].
Definition sync_load (l : nat) (o : morder) : list item :=
  [ld l] ++ when (with_acquire o) [full].
(** core_ops_gcc_sync.hpp 128-136: __sync_lock_test_and_set is "an acquire
    barrier: references after the operation cannot move to (or be speculated
    to) before the operation" (GCC manual). *)
Definition lock_test_and_set (l : nat) : list item :=
  [Access (Acc Rd l true true true false false false);
   Access (Acc Wr l true true true false false false)].
Definition sync_exchange (l : nat) (o : morder) : list item :=
  when (with_release o) [full] ++ lock_test_and_set l.
(** core_ops_gcc_sync.hpp 183-188: __sync_lock_release is "a release barrier:
    all previous memory stores are globally visible, and all previous memory
    loads have been satisfied" (GCC manual). *)
Definition sync_clear (l : nat) (o : morder) : list item :=
  [Access (Acc Wr l true true false true false false)] ++ when (is_seq_cst o) [full].
(** core_ops_gcc_sync.hpp 118-126, 138-175: the other __sync functions are full
    barriers. *)
Definition sync_emit (l : nat) (p : op) : list item :=
  match p with
  | OStore _ o => sync_store l o
  | OLoad _ o => sync_load l o
  | OExchange _ o | OTestAndSet _ o => sync_exchange l o
  | OFetch _ _ _ => full_rmw l
  | OCas ok _ _ _ => if ok then full_rmw l else full_read l
  | OClear _ o => sync_clear l o
  end.
(** core_ops_gcc_sync.hpp 86-89, 98-105: objects larger than a pointer. *)
Definition syncw_emit (l : nat) (p : op) : list item :=
  match p with
  | OStore _ o => sync_exchange l o
  | OLoad _ _ => full_rmw l
  | _ => sync_emit l p
  end.

(** *** Linux on old Arm processors *)

(** core_ops_linux_arm.hpp 97-109 with the fences 68-84. *)
Definition linux_store (l : nat) (o : morder) : list item :=
  when (with_release o) [full] ++ [st l] ++ when (is_seq_cst o) [full].
Definition linux_load (l : nat) (o : morder) : list item :=
  [ld l] ++ when (with_acquire o) [full].
(** core_ops_linux_arm.hpp 127-142: when the kernel's helper fails, the object
    is read again, without a barrier. *)
Definition linux_cas (ok : bool) (l : nat) : list item :=
  if ok then full_rmw l else full_read l ++ [ld l].
(** core_ops_linux_arm.hpp 111-125: the strong form repeats the weak one;
    core_ops_cas_based.hpp 36-79 and cas_based_exchange.hpp 36-42. *)
Definition linux_emit (l : nat) (p : op) : list item :=
  match p with
  | OStore _ o | OClear _ o => linux_store l o
  | OLoad _ o => linux_load l o
  | OExchange n _ | OTestAndSet n _ | OFetch _ n _ =>
      [ld l] ++ repeat_code n (linux_cas false l) ++ linux_cas true l
  | OCas ok n _ _ => repeat_code n (linux_cas false l) ++ linux_cas ok l
  end.

(** *** Windows *)

(** core_ops_windows.hpp 49-57 and 70-158: compiler barriers around the
    Interlocked functions; load is fetch_add of zero, store is exchange. *)
Definition windows_rmw (l : nat) : list item := [Clobber] ++ full_rmw l ++ [Clobber].
Definition windows_emit (l : nat) (p : op) : list item :=
  match p with
  | OCas ok _ _ _ => [Clobber] ++ (if ok then full_rmw l else full_read l) ++ [Clobber]
  | _ => windows_rmw l
  end.

(** core_arch_ops_msvc_x86.hpp 72-137: compiler barriers around plain accesses,
    seq_cst stores are exchanges, and the Interlocked functions; 180-215: loops
    where there is no Interlocked function for the operation. *)
Definition msvc_store (l : nat) (o : morder) : list item :=
  if is_seq_cst o then full_rmw l else [Clobber] ++ [st l] ++ [Clobber].
Definition msvc_load (l : nat) : list item := [ld l] ++ [Clobber].
Definition msvc_emit (l : nat) (p : op) : list item :=
  match p with
  | OStore _ o | OClear _ o => msvc_store l o
  | OLoad _ _ => msvc_load l
  | OExchange _ _ | OTestAndSet _ _ => full_rmw l
  | OFetch arith n _ => x86_fetch arith n l
  | OCas ok _ _ _ => x86_cas ok l
  end.

(** core_arch_ops_msvc_arm.hpp 84-108: the fences. *)
Definition msvca_fence (b : bool) : list item := [Clobber] ++ when b [full] ++ [Clobber].
(** core_arch_ops_msvc_arm.hpp 161-174. *)
Definition msvca_store (l : nat) (o : morder) : list item :=
  msvca_fence (with_release o) ++ [st l] ++ msvca_fence (is_seq_cst o).
Definition msvca_load (l : nat) (o : morder) : list item :=
  [ld l] ++ msvca_fence (with_acquire o).
(** core_arch_ops_msvc_arm.hpp 176-218 and others: the forms of the Interlocked
    functions, by the value of the order. *)
Definition msvca_rmw (ok : bool) (l : nat) (c : Z) : list item :=
  if c =? 0 then [ld l] ++ when ok [st l]
  else if (c =? 1) || (c =? 2) then
    [Access (Acc Rd l true true true false false false)] ++
    when ok [Access (Acc Wr l true true true false false false)]
  else if c =? 4 then
    [Access (Acc Rd l true true false true false false)] ++
    when ok [Access (Acc Wr l true true false true false false)]
  else [full; ld_asm l] ++ when ok [st_asm l] ++ [full].
(** core_arch_ops_msvc_arm.hpp 110-115: [cas_common_order]; the values have at
    most four bits. *)
Definition cas_common_order (so fo : morder) : Z :=
  let c := Z.lor (code fo) (code so) in
  Z.lor (Z.land c (Z.lnot (code Consume))) (Z.shiftl (Z.land c (code Consume)) 1).
Definition msvca_emit (l : nat) (p : op) : list item :=
  match p with
  | OStore _ o | OClear _ o => msvca_store l o
  | OLoad _ o => msvca_load l o
  | OExchange _ o | OTestAndSet _ o | OFetch _ _ o => msvca_rmw true l (code o)
  | OCas ok _ so fo => msvca_rmw ok l (cas_common_order so fo)
  end.

(** The code of an operation on the object at [l]. *)
Definition emit (b : backend) (l : nat) (p : op) : list item :=
  match b with
  | X86 => x86_emit l p
  | X86Wide aligned => x86w_emit aligned l p
  | Ppc ppc64 => ppc_emit ppc64 l p
  | Arm | Alpha => arm_emit l p
  | ArmWide => armw_emit l p
  | Aarch32 => a64_emit false l p
  | Aarch32Wide => a32w_emit l p
  | Aarch64 rcpc => a64_emit rcpc l p
  | Aarch64Wide => a64w_emit l p
  | Sparc => sparc_emit l p
  | GccSync => sync_emit l p
  | GccSyncWide => syncw_emit l p
  | LinuxArm => linux_emit l p
  | Windows => windows_emit l p
  | MsvcX86 => msvc_emit l p
  | MsvcArm => msvca_emit l p
  end.

(** ** Fences *)

(** fences.hpp 38-46 with the fence_arch_ops_*.hpp and fence_ops_*.hpp of each
    back end: [atomic_thread_fence].  gcc_x86 32-52, gcc_ppc 32-45, gcc_arm
    35-39, gcc_aarch32 33-42, gcc_aarch64 32-41, gcc_alpha 32-36, gcc_sparc
    32-53, gcc_sync 32-36, linux_arm 36-40, windows 35-44, msvc_x86 35-49,
    msvc_arm 38-44.  The dummy objects the x86 and Windows fences write are not
    modelled. *)
Definition thread_fence (b : backend) (o : morder) : list item :=
  match b with
  | X86 | X86Wide _ =>
      if is_seq_cst o then [full]
      else when (has o (Z.lor (code Acquire) (code Release))) [Clobber]
  | Ppc ppc64 =>
      match o with
      | Relaxed => []
      | _ => if ppc64 then if is_seq_cst o then [full] else [lwsync] else [full]
      end
  | Aarch32 | Aarch32Wide | Aarch64 _ | Aarch64Wide =>
      match o with
      | Relaxed => []
      | Consume | Acquire => [dmb_ishld]
      | _ => [full]
      end
  | Sparc =>
      match o with
      | Release => [storestore_loadstore]
      | Consume | Acquire => [loadload_loadstore]
      | AcqRel => [loadload_loadstore_storestore]
      | SeqCst => [full]
      | Relaxed => []
      end
  | Windows =>
      match o with
      | Relaxed => []
      | _ => [Clobber] ++ when (is_seq_cst o) [full] ++ [Clobber]
      end
  | MsvcX86 =>
      if is_seq_cst o then [full]
      else match o with Relaxed => [] | _ => [Clobber] end
  | MsvcArm =>
      [Clobber] ++ match o with Relaxed => [] | _ => [full] end ++ [Clobber]
  | Arm | ArmWide | Alpha | GccSync | GccSyncWide | LinuxArm =>
      match o with Relaxed => [] | _ => [full] end
  end.

(** [atomic_signal_fence], the same in all: gcc_x86 54-58, gcc_ppc 47-57, gcc_arm
    41-45, gcc_aarch32 44-48, gcc_aarch64 43-47, gcc_alpha 38-42, gcc_sparc
    55-59, gcc_sync 38-42, linux_arm 42-46, windows 46-50, msvc_x86 51-55,
    msvc_arm 46-50. *)
Definition signal_fence (b : backend) (o : morder) : list item :=
  match o with Relaxed => [] | _ => [Clobber] end.
