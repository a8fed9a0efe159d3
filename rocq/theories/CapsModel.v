(** * Which implementation the library selects, and what it reports. *)
From Coq Require Import ZArith List Bool.
Require Import Verif.SpecCaps Verif.BytesModel.
Import ListNotations.
Open Scope Z_scope.

(** D is include/boost/atomic/detail.  A macro that may be undefined is an
    [option]. *)

(** ** Processors *)

(** D/caps_arch_gcc_x86.hpp 27-33, 35-37; D/caps_arch_msvc_x86.hpp 25-27, 29-37.
    Simplification: the branch for compilers that are not GNU-like (44-58) is
    not modelled; D/platform.hpp 52 requires __GNUC__. *)
Definition has_cmpxchg8b (p : processor) : bool :=
  match p with
  | X86 mode64 sync8 i586 i686 sse _ => negb mode64 && (sync8 || i586 || i686 || sse)
  | MsX86 amd64 ix86_500 _ _ _ => negb amd64 && ix86_500
  | _ => false
  end.
Definition has_cmpxchg16b (p : processor) : bool :=
  match p with
  | X86 mode64 _ _ _ _ sync16 => mode64 && sync16
  | MsX86 amd64 _ cas16b _ _ => amd64 && cas16b
  | _ => false
  end.

(** D/caps_arch_gcc_arm.hpp 56-88: BOOST_ATOMIC_DETAIL_ARM_HAS_LDREXB_STREXB,
    ..H.., ..D.. *)
Definition arm_ldrexb (p : processor) : bool :=
  match p with
  | Arm (Some (b, _, _)) _ _ _ _ => b
  | Arm None v6 gcc49 _ _ => negb v6 && gcc49
  | _ => false
  end.
Definition arm_ldrexh (p : processor) : bool :=
  match p with
  | Arm (Some (_, h, _)) _ _ _ _ => h
  | Arm None v6 gcc49 _ _ => negb v6 && gcc49
  | _ => false
  end.
Definition arm_ldrexd (p : processor) : bool :=
  match p with
  | Arm (Some (_, _, d)) _ _ _ _ => d
  | Arm None v6 _ v6k_thumb v7m => negb v6 && negb (v6k_thumb || v7m)
  | _ => false
  end.

(** BOOST_ATOMIC_INTn_LOCK_FREE as defined by the caps_arch_ header, for n/8
    bytes: D/caps_arch_gcc_x86.hpp 60-68, gcc_aarch64 55-59, gcc_aarch32 44-47,
    gcc_arm 92-97, gcc_ppc 44-49, gcc_sparc 25-28, gcc_alpha 25-28, msvc_arm
    25-28, msvc_x86 44-54. *)
Definition when (b : bool) (v : Z) : option Z := if b then Some v else None.
Definition arch_macro (p : processor) (bytes : Z) : option Z :=
  if (bytes =? 1) || (bytes =? 2) || (bytes =? 4) then Some 2
  else if bytes =? 8 then
    match p with
    | X86 mode64 _ _ _ _ _ => when (mode64 || has_cmpxchg8b p) 2
    | MsX86 amd64 _ _ _ _ => when (amd64 || has_cmpxchg8b p) 2
    | Arm _ _ _ _ _ => when (arm_ldrexd p) 2
    | PowerPC _ ppc64 => when ppc64 2
    | AArch64 | AArch32 | Sparc | Alpha | MsArm => Some 2
    end
  else if bytes =? 16 then
    match p with
    | X86 _ _ _ _ _ _ | MsX86 _ _ _ _ _ => when (has_cmpxchg16b p) 2
    | AArch64 => Some 2
    | _ => None
    end
  else None.
(** BOOST_ATOMIC_POINTER_LOCK_FREE: 2 in every caps_arch_ header. *)
Definition arch_pointer_macro (p : processor) : option Z := Some 2.

(** The specializations of [core_arch_operations]: storage size, if there is
    one.  D/core_arch_ops_gcc_x86.hpp 116, 225, 334, 441-812, 920-1164;
    gcc_aarch64 49, 455, 861, 1265, 1684; gcc_aarch32 53, 335, 617, 914; gcc_arm
    60, 322-708, 716-1102, 1110-1125; gcc_ppc 85, 342-708, 710-1076, 1078-1081;
    gcc_sparc 133-146, 204; gcc_alpha 91, 352-540, 602; msvc_arm 154, 319, 484,
    649; msvc_x86 151, 219-392, 394-567, 570-782, 824-890. *)
Definition arch_storage (p : processor) (bytes : Z) : option Z :=
  if bytes =? 1 then
    match p with
    | Arm _ _ _ _ _ => Some (if arm_ldrexb p then 1 else 4)
    | PowerPC pwr8 _ => Some (if pwr8 then 1 else 4)
    | Sparc | Alpha => Some 4
    | MsX86 amd64 _ _ cas8 _ => Some (if cas8 then 1 else if negb amd64 then 1 else 4)
    | X86 _ _ _ _ _ _ | AArch64 | AArch32 | MsArm => Some 1
    end
  else if bytes =? 2 then
    match p with
    | Arm _ _ _ _ _ => Some (if arm_ldrexh p then 2 else 4)
    | PowerPC pwr8 _ => Some (if pwr8 then 2 else 4)
    | Sparc | Alpha => Some 4
    | MsX86 amd64 _ _ _ cas16 => Some (if cas16 then 2 else if negb amd64 then 2 else 4)
    | X86 _ _ _ _ _ _ | AArch64 | AArch32 | MsArm => Some 2
    end
  else if bytes =? 4 then Some 4
  else if bytes =? 8 then
    match p with
    | X86 mode64 _ _ _ _ _ => if has_cmpxchg8b p then Some 8 else when mode64 8
    | MsX86 amd64 _ _ _ _ => if has_cmpxchg8b p then Some 8 else when amd64 8
    | Arm _ _ _ _ _ => when (arm_ldrexd p) 8
    | PowerPC _ ppc64 => when ppc64 8
    | AArch64 | AArch32 | Sparc | Alpha | MsArm => Some 8
    end
  else if bytes =? 16 then
    match p with
    | X86 _ _ _ _ _ _ | MsX86 _ _ _ _ _ => when (has_cmpxchg16b p) 16
    | AArch64 => Some 16
    | _ => None
    end
  else None.

(** ** Back ends, D/platform.hpp 46-142 *)
Inductive backend := GccAtomic | GccSync | LinuxArm | Windows.
Definition arch (t : target) : option processor := if fallback t then None else cpu t.
Definition none {A} (o : option A) : bool := match o with None => true | _ => false end.
Definition core_backend (t : target) : option backend :=
  if fallback t then None
  else if intrinsics t &&
          ((level t CBool =? 2) || (level t CChar =? 2) || (level t CShort =? 2) ||
           (level t CInt =? 2) || (level t CLong =? 2) || (level t CLlong =? 2)) then Some GccAtomic
  else if none (arch t) &&
          (sync_sizes t 1 || sync_sizes t 2 || sync_sizes t 4 || sync_sizes t 8 || sync_sizes t 16)
  then Some GccSync
  else if none (arch t) then
    if linux_arm t then Some LinuxArm else if windows t then Some Windows else None
  else None.

(** ** The macros BOOST_ATOMIC_INTn_LOCK_FREE *)

(** D/caps_gcc_atomic.hpp 29-77 *)
Definition level_of_size (t : target) (bytes : Z) : Z :=
  if bytes =? 1 then level t CChar
  else if sizeof t CShort =? bytes then level t CShort
  else if sizeof t CInt =? bytes then level t CInt
  else if sizeof t CLong =? bytes then level t CLong
  else if sizeof t CLlong =? bytes then level t CLlong
  else 0.
Definition arch_test (f : processor -> bool) (t : target) : bool :=
  match arch t with Some p => f p | None => false end.
(** D/caps_gcc_atomic.hpp 84-91, 97-100 *)
Definition gcc_level (t : target) (bytes : Z) : Z :=
  if (bytes =? 16) && arch_test has_cmpxchg16b t && (clang t && clang_before_3_5 t || gcc_7 t) then 0
  else if (bytes =? 8) && arch_test has_cmpxchg8b t && clang t then 0
  else level_of_size t bytes.
Definition arch_macro_of (t : target) (bytes : Z) : option Z :=
  match arch t with Some p => arch_macro p bytes | None => None end.
(** D/caps_gcc_atomic.hpp 103-106 *)
Definition raise (old : option Z) (new : Z) : Z :=
  match old with Some v => if v <? new then new else v | None => new end.
(** D/caps_gcc_atomic.hpp 108-115, and the same in 117-124, 126-133, 135-142 *)
Definition raise2 (old : option Z) (own larger : Z) : Z :=
  match old with
  | Some v => if (v <? own) || (v <? larger) then if own >=? larger then own else larger else v
  | None => if own >=? larger then own else larger
  end.
Definition gcc_macro16 (t : target) : Z := raise (arch_macro_of t 16) (gcc_level t 16).
Definition gcc_macro8 (t : target) : Z := raise2 (arch_macro_of t 8) (gcc_level t 8) (gcc_macro16 t).
Definition gcc_macro4 (t : target) : Z := raise2 (arch_macro_of t 4) (gcc_level t 4) (gcc_macro8 t).
Definition gcc_macro2 (t : target) : Z := raise2 (arch_macro_of t 2) (gcc_level t 2) (gcc_macro4 t).
Definition gcc_macro1 (t : target) : Z := raise2 (arch_macro_of t 1) (gcc_level t 1) (gcc_macro2 t).

Definition two_if (b : bool) : Z := if b then 2 else 0.
Definition orelse (o : option Z) : Z := match o with Some v => v | None => 0 end.
(** D/capabilities.hpp 24-28, 34-52; D/caps_gcc_sync.hpp 25-49; D/caps_linux_arm.hpp
    27-29; D/caps_windows.hpp 25-27 *)
Definition int_macro (t : target) (bytes : Z) : Z :=
  match core_backend t with
  | Some GccAtomic =>
      if bytes =? 1 then gcc_macro1 t else if bytes =? 2 then gcc_macro2 t
      else if bytes =? 4 then gcc_macro4 t else if bytes =? 8 then gcc_macro8 t
      else if bytes =? 16 then gcc_macro16 t else 0
  | Some GccSync =>
      let s := sync_sizes t in
      if bytes =? 1 then two_if (s 1 || s 2 || s 4 || s 8 || s 16)
      else if bytes =? 2 then two_if (s 2 || s 4 || s 8 || s 16)
      else if bytes =? 4 then two_if (s 4 || s 8 || s 16)
      else if bytes =? 8 then two_if (s 8 || s 16)
      else if bytes =? 16 then two_if (s 16) else 0
  | Some LinuxArm | Some Windows => two_if ((bytes =? 1) || (bytes =? 2) || (bytes =? 4))
  | None => orelse (arch_macro_of t bytes)
  end.

(** ** [core_operations< bytes >] *)

(** D/core_operations.hpp 37-39 and D/core_arch_operations.hpp 38-40: without a
    specialization, the assembler; without that, the lock pool. *)
Definition default_class (t : target) (bytes : Z) : implementation :=
  match arch t with
  | Some p => match arch_storage p bytes with
              | Some s => Impl Assembler s
              | None => Impl LockPool bytes
              end
  | None => Impl LockPool bytes
  end.

(** A specialization the preprocessor leaves in: the size it is for, and the
    size of the __atomic intrinsics it uses. *)
Record specialization := For { spec_for : Z; spec_uses : Z }.
(** D/core_ops_gcc_atomic.hpp 162-170, 172-190, 193-219, 222-256, 259-301 *)
Definition specialize (t : target) (bytes : Z) (macro : Z) (branches : list (Z * specialization)) :
  list specialization :=
  if macro >? 0 then
    match filter (fun b => gcc_level t (fst b) >=? macro) branches with
    | b :: _ => [snd b]
    | [] => []
    end
  else [].
Definition gcc_specializations (t : target) : list specialization :=
  specialize t 16 (gcc_macro16 t) [(16, For 16 16)] ++
  specialize t 8 (gcc_macro8 t) [(8, For 8 8); (16, For 8 16)] ++
  specialize t 4 (gcc_macro4 t) [(4, For 4 4); (8, For 4 8); (16, For 8 16)] ++
  specialize t 2 (gcc_macro2 t) [(2, For 2 2); (4, For 2 4); (8, For 2 8); (16, For 2 16)] ++
  specialize t 1 (gcc_macro1 t) [(1, For 1 1); (2, For 1 2); (4, For 1 4); (8, For 1 8); (16, For 1 16)].
(** Two specializations for the same size are an error, whichever size the
    program uses: [None]. *)
Fixpoint repeated (l : list Z) : bool :=
  match l with
  | [] => false
  | x :: l' => existsb (Z.eqb x) l' || repeated l'
  end.
Definition pick (t : target) (bytes : Z) (l : list specialization) : option implementation :=
  if repeated (map spec_for l) then None
  else match filter (fun s => spec_for s =? bytes) l with
       | s :: _ => Some (Impl CompilerAtomic (spec_uses s))
       | [] => Some (default_class t bytes)
       end.
(** The smallest size with a __sync intrinsic, from [bytes] on; D/core_ops_gcc_sync.hpp
    191-257.  The last branch is taken without a test. *)
Fixpoint first_sync (t : target) (sizes : list Z) : Z :=
  match sizes with
  | [] => 16
  | n :: rest => if sync_sizes t n then n else first_sync t rest
  end.
Definition sync_storage (t : target) (bytes : Z) : Z :=
  first_sync t (filter (fun n => n >=? bytes) [1; 2; 4; 8]).
Definition known_size (bytes : Z) : bool :=
  (bytes =? 1) || (bytes =? 2) || (bytes =? 4) || (bytes =? 8) || (bytes =? 16).

(** [core_operations< bytes >]; [None]: the program does not compile.  For
    D/core_ops_linux_arm.hpp 146-159 and D/core_ops_windows.hpp 106-190.
    Simplification: the specialization for 4 bytes in D/core_ops_windows.hpp
    105-106 is read as if its argument list were correct. *)
Definition core_class (t : target) (bytes : Z) : option implementation :=
  match core_backend t with
  | Some GccAtomic => pick t bytes (gcc_specializations t)
  | Some GccSync =>
      if known_size bytes && (int_macro t bytes >? 0) then Some (Impl CompilerSync (sync_storage t bytes))
      else Some (default_class t bytes)
  | Some LinuxArm =>
      if (bytes =? 1) || (bytes =? 2) || (bytes =? 4) then Some (Impl KernelHelper 4)
      else Some (default_class t bytes)
  | Some Windows =>
      if (bytes =? 1) || (bytes =? 2) || (bytes =? 4) then Some (Impl Interlocked 4)
      else Some (default_class t bytes)
  | None => Some (default_class t bytes)
  end.

(** [is_always_lock_free] of the implementation: D/core_ops_gcc_atomic.hpp 67,
    D/core_ops_gcc_sync.hpp 40, D/core_ops_linux_arm.hpp 66,
    D/core_ops_windows.hpp 48, the files of [arch_storage], and
    D/core_operations_emulated.hpp 65. *)
Definition always_lock_free (i : implementation) : bool :=
  match made_of i with LockPool => false | _ => true end.

(** ** The classes of the interface *)

(** [atomic< T >], D/atomic_impl.hpp 73-83, 110-115, for a type of that size *)
Definition atomic_class (t : target) (size : Z) : option implementation := core_class t (storage_size size).
(** [atomic_flag], D/atomic_flag_impl.hpp 51-56 *)
Definition flag_class (t : target) : option implementation := core_class t 4.
(** [atomic_ref< T >], D/atomic_ref_impl.hpp 55-63, 73-87 *)
Definition ref_class (t : target) (size : Z) : option implementation :=
  match core_class t size with
  | Some i => Some (if (size =? storage_bytes i) && always_lock_free i then i else Impl LockPool size)
  | None => None
  end.
(** Calling an operation of an object between processes compiles: the
    static_assert in D/core_operations_emulated.hpp 71-183. *)
Definition ipc_compiles (i : implementation) : bool := always_lock_free i.

(** ** The macros for types, D/capabilities.hpp 55-205 *)
(** 71-139: wchar_t, short, int, long, long long, by size; also 55-69 with sizes
    1, 2, 4.  The same in D/wait_capabilities.hpp, there for the wait macros. *)
Definition by_size (macro : Z -> Z) (size : Z) : Z :=
  if size =? 1 then macro 1 else if size =? 2 then macro 2
  else if size =? 4 then macro 4 else if size =? 8 then macro 8 else 0.
Definition type_macro (t : target) (size : Z) : Z := by_size (int_macro t) size.
(** 165-205: float, double, long double *)
Definition float_by_size (macro : Z -> Z) (size : Z) : Z :=
  if size =? 2 then macro 2 else if size =? 4 then macro 4 else if size =? 8 then macro 8
  else if (8 <? size) && (size <=? 16) then macro 16 else 0.
Definition float_macro (t : target) (size : Z) : Z := float_by_size (int_macro t) size.
(** 141-149; D/caps_gcc_atomic.hpp 144-147; D/caps_linux_arm.hpp 30; D/caps_windows.hpp 28 *)
Definition pointer_by_size (macro : Z -> Z) (size : Z) : Z :=
  if size =? 8 then macro 8 else if size =? 4 then macro 4 else 0.
Definition pointer_macro (t : target) : Z :=
  let own := match arch t with Some p => arch_pointer_macro p | None => None end in
  let sized := pointer_by_size (int_macro t) (sizeof t CPointer) in
  match core_backend t with
  | Some GccAtomic => raise own (level t CPointer)
  | Some GccSync => sized
  | Some LinuxArm | Some Windows => 2
  | None => match own with Some v => v | None => sized end
  end.
(** 153-161 *)
Definition bool_macro (t : target) : Z := int_macro t 1.
Definition flag_macro (t : target) : Z := int_macro t 4.

(** ** Native waits *)

(** D/platform.hpp 145-174; [BOOST_ATOMIC_FORCE_FALLBACK] leaves the generic
    back end *)
Definition wait_system (t : target) : system := if fallback t then SysOther else sys t.
(** BOOST_ATOMIC_HAS_NATIVE_INTn_WAIT_NOTIFY and .._IPC_WAIT_NOTIFY:
    D/wait_caps_windows.hpp, wait_caps_futex.hpp, wait_caps_darwin_ulock.hpp,
    wait_caps_freebsd_umtx.hpp, wait_caps_dragonfly_umtx.hpp;
    D/wait_capabilities.hpp 30-63.  Simplification: BOOST_ATOMIC_EMULATED, which
    no file of the library defines, is taken to be undefined. *)
Definition wait_macro (t : target) (bytes : Z) (ipc : bool) : Z :=
  match wait_system t with
  | SysWindows =>
      if negb ipc && ((bytes =? 1) || (bytes =? 2) || (bytes =? 4) || (bytes =? 8)) then int_macro t bytes else 0
  | SysFutex => if bytes =? 4 then int_macro t 4 else 0
  | SysDarwin u64 shared =>
      if (bytes =? 4) && (negb ipc || shared) then int_macro t 4
      else if (bytes =? 8) && u64 && (negb ipc || shared) then int_macro t 8
      else 0
  | SysFreeBSD wait_uint wait =>
      if (bytes =? 4) && (wait_uint && (sizeof t CInt =? 4) || wait && (sizeof t CLong =? 4)) then int_macro t 4
      else if (bytes =? 8) && wait && (sizeof t CLong =? 8) then int_macro t 8
      else 0
  | SysDragonFly => if bytes =? 4 then int_macro t 4 else 0
  | SysOther => 0
  end.
(** The specialization of [wait_operations] for a lock-free class with that
    storage is a native one: D/wait_ops_windows.hpp 151-169, D/wait_ops_futex.hpp
    98, D/wait_ops_darwin_ulock.hpp 192-218, D/wait_ops_freebsd_umtx.hpp 362-398,
    D/wait_ops_dragonfly_umtx.hpp 37; otherwise D/wait_ops_generic.hpp 372. *)
Definition native_storage (t : target) (bytes : Z) (ipc : bool) : bool :=
  match wait_system t with
  | SysWindows => negb ipc && ((bytes =? 1) || (bytes =? 2) || (bytes =? 4) || (bytes =? 8))
  | SysFutex => bytes =? 4
  | SysDarwin u64 shared =>
      (bytes =? 4) && (negb ipc || shared) || (bytes =? 8) && u64 && (negb ipc || shared)
  | SysFreeBSD wait_uint wait =>
      wait_uint && (bytes =? sizeof t CInt) ||
      wait && (negb wait_uint || (sizeof t CInt <? sizeof t CLong)) && (bytes =? sizeof t CLong)
  | SysDragonFly => bytes =? sizeof t CInt
  | SysOther => false
  end.
(** [always_has_native_wait_notify]: D/wait_operations_fwd.hpp 29-35 (the size is
    that of the storage), D/wait_ops_emulated.hpp 50, 230 *)
Definition always_native (t : target) (i : implementation) (ipc : bool) : bool :=
  always_lock_free i && native_storage t (storage_bytes i) ipc.
