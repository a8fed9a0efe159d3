(** * What a user may expect of the lock-free and native-wait macros and
    constants (C48, C49). *)
From Coq Require Import ZArith List Bool.
Import ListNotations.
Open Scope Z_scope.

(** ** A target: what the compiler, the processor and the system offer.

    Everything here is an input of the library: predefined macros, sizes of
    types.  Nothing is chosen by the library. *)

(** The types that have a predefined macro __GCC_ATOMIC_..._LOCK_FREE. *)
Inductive ctype := CChar | CShort | CInt | CLong | CLlong | CPointer | CBool.

(** Processors for which the library has assembler or Microsoft intrinsics.
    - x86 with a GNU compiler: is it the 64 bit mode, is
      __GCC_HAVE_SYNC_COMPARE_AND_SWAP_8, __i586__, __i686__, __SSE__,
      __GCC_HAVE_SYNC_COMPARE_AND_SWAP_16 defined;
    - Arm before version 8: the bits 1, 2 and 8 of __ARM_FEATURE_LDREX if that
      is defined; a plain Arm version 6; GCC 4.9 or later; Arm version 6K as
      Thumb; Arm version 7 without a letter or 7-M;
    - PowerPC: _ARCH_PWR8, 64 bit mode;
    - x86 with the Microsoft compiler: 64 bit mode, _M_IX86 >= 500, 16-byte
      compare-exchange not disabled and available, 8-bit and 16-bit
      compare-exchange intrinsics. *)
Inductive processor :=
| X86 (mode64 sync8 i586 i686 sse sync16 : bool)
| AArch64
| AArch32
| Arm (ldrex : option (bool * bool * bool)) (v6 gcc49 v6k_thumb v7m : bool)
| PowerPC (pwr8 ppc64 : bool)
| Sparc
| Alpha
| MsArm
| MsX86 (amd64 ix86_500 cas16b cas8 cas16 : bool).

(** System calls a thread can sleep with. *)
Inductive system :=
| SysWindows
| SysFutex
| SysDarwin (ulock64 ulock_shared : bool)
| SysFreeBSD (wait_uint wait : bool)
| SysDragonFly
| SysOther.

Record target := Target {
  (** BOOST_ATOMIC_FORCE_FALLBACK *)
  fallback : bool;
  cpu : option processor;
  (** GCC from 4.7, clang from 3.2, not IBM XL: there are __atomic intrinsics *)
  intrinsics : bool;
  (** __GCC_ATOMIC_..._LOCK_FREE: 0 never, 1 depends, 2 always *)
  level : ctype -> Z;
  clang : bool;
  clang_before_3_5 : bool;
  gcc_7 : bool;
  (** the sizes with __GCC_HAVE_SYNC_COMPARE_AND_SWAP_n, none for a compiler
      that is not GCC 4.1 or later *)
  sync_sizes : Z -> bool;
  linux_arm : bool;
  windows : bool;
  sizeof : ctype -> Z;
  sys : system }.

(** The compiler is consistent: [char] and [bool] have one byte, its answer
    depends only on the size of a type, and is 0, 1 or 2. *)
Definition sane (t : target) : Prop :=
  sizeof t CChar = 1 /\ sizeof t CBool = 1 /\
  (forall c d, sizeof t c = sizeof t d -> level t c = level t d) /\
  (forall c, 0 <= level t c <= 2) /\
  (forall c, sizeof t c = 1 \/ sizeof t c = 2 \/ sizeof t c = 4 \/ sizeof t c = 8 \/ sizeof t c = 16).

(** The compiler never answers "depends". *)
Definition decided (t : target) : Prop := forall c, level t c = 0 \/ level t c = 2.

(** Pointers of 8 bytes exist only where the processor has 8-byte
    operations; some integer type has the size of a pointer. *)
Definition pointers_fit (t : target) : Prop :=
  (exists c, In c [CChar; CShort; CInt; CLong; CLlong] /\ sizeof t c = sizeof t CPointer) /\
  match cpu t with
  | Some (X86 mode64 _ _ _ _ _) => sizeof t CPointer <= if mode64 then 8 else 4
  | Some (Arm _ _ _ _ _) => sizeof t CPointer <= 4
  | Some (PowerPC _ ppc64) => sizeof t CPointer <= if ppc64 then 8 else 4
  | Some (MsX86 amd64 _ _ _ _) => sizeof t CPointer <= if amd64 then 8 else 4
  | Some _ => sizeof t CPointer <= 8
  | None => True
  end.

(** ** What an atomic object may be made of. *)
Inductive means :=
| CompilerAtomic   (* __atomic intrinsics; may call a library with locks *)
| CompilerSync     (* __sync intrinsics *)
| Assembler        (* instructions, or intrinsics that stand for them *)
| KernelHelper     (* __kuser_cmpxchg *)
| Interlocked      (* Windows functions *)
| LockPool.        (* the pool of locks of the library *)

Record implementation := Impl { made_of : means; storage_bytes : Z }.

(** The processor has atomic read-modify-write instructions for objects of that
    many bytes (compare-exchange, or load-exclusive and store-exclusive). *)
Definition executes (p : processor) (bytes : Z) : Prop :=
  match p with
  | X86 mode64 sync8 i586 i686 sse sync16 =>
      In bytes [1; 2; 4] \/
      bytes = 8 /\ (mode64 = true \/ sync8 = true \/ i586 = true \/ i686 = true \/ sse = true) \/
      bytes = 16 /\ mode64 = true /\ sync16 = true
  | AArch64 => In bytes [1; 2; 4; 8; 16]
  | AArch32 | MsArm => In bytes [1; 2; 4; 8]
  | Arm (Some (b, h, d)) _ _ _ _ =>
      bytes = 4 \/ bytes = 1 /\ b = true \/ bytes = 2 /\ h = true \/ bytes = 8 /\ d = true
  | Arm None v6 _ v6k_thumb v7m =>
      bytes = 4 \/ In bytes [1; 2] /\ v6 = false \/
      bytes = 8 /\ v6 = false /\ v6k_thumb = false /\ v7m = false
  | PowerPC pwr8 ppc64 => bytes = 4 \/ In bytes [1; 2] /\ pwr8 = true \/ bytes = 8 /\ ppc64 = true
  | Sparc | Alpha => In bytes [4; 8]
  | MsX86 amd64 ix86_500 cas16b _ _ =>
      In bytes [1; 2; 4] \/ bytes = 8 /\ (amd64 = true \/ ix86_500 = true) \/
      bytes = 16 /\ amd64 = true /\ cas16b = true
  end.

(** Every operation of such an object is free of locks: the compiler promises
    it for the type, or offers the intrinsic, or the processor has the
    instructions, or the system the 4-byte function. *)
Definition never_locks (t : target) (i : implementation) : Prop :=
  let s := storage_bytes i in
  match made_of i with
  | LockPool => False
  | CompilerAtomic => exists c, sizeof t c = s /\ level t c = 2
  | CompilerSync => sync_sizes t s = true
  | Assembler => exists p, cpu t = Some p /\ executes p s
  | KernelHelper => linux_arm t = true /\ s = 4
  | Interlocked => windows t = true /\ s = 4
  end.

(** ** Native waits: the system can sleep on a value of that many bytes,
    within the process or also between processes. *)
Definition system_waits (t : target) (bytes : Z) (between_processes : bool) : Prop :=
  match sys t with
  | SysWindows => (bytes = 1 \/ bytes = 2 \/ bytes = 4 \/ bytes = 8) /\ between_processes = false
  | SysFutex => bytes = 4
  | SysDarwin u64 shared => (bytes = 4 \/ bytes = 8 /\ u64 = true) /\ (between_processes = true -> shared = true)
  | SysFreeBSD wait_uint wait =>
      wait_uint = true /\ bytes = sizeof t CInt \/ wait = true /\ bytes = sizeof t CLong
  | SysDragonFly => bytes = sizeof t CInt
  | SysOther => False
  end.

(** [int] and [long] have the sizes they have on the systems of that name. *)
Definition usual_sizes (t : target) : Prop :=
  match sys t with
  | SysFreeBSD _ _ => sizeof t CInt = 4 /\ (sizeof t CLong = 4 \/ sizeof t CLong = 8)
  | SysDragonFly => sizeof t CInt = 4
  | _ => True
  end.
