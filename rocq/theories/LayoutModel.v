(** * Size and alignment of the objects of the library.  D is include/boost/atomic/detail. *)
From Coq Require Import ZArith List Bool.
Require Import Verif.SpecCaps Verif.SpecLayout Verif.BytesModel Verif.CapsModel.
Import ListNotations.
Open Scope Z_scope.

(** The layout of a class with one member: [alignas(a) type member], or the union of D/aligned_variable.hpp 39-52.  The
    rules of C++ for [sizeof] and [alignof]: the strictest alignment, the size rounded up to it. *)
Definition round_up (n a : Z) : Z := (n + a - 1) / a * a.
Definition aligned_member (b : abi) (a : Z) (l : layout) : layout :=
  let al := Z.max a (l_align l) in
  Layout (round_up (match aligner b with None => l_size l | Some f => Z.max (l_size l) (f a) end) al) al.
(** [alignas(a)] must not ask for less than the type has. *)
Definition alignas_legal (a : Z) (l : layout) : Prop := power_of_two a /\ l_align l <= a.

(** [buffer_storage< size, a >], D/storage_traits.hpp 41-45, without the comparisons *)
Definition buffer_storage (b : abi) (size a : Z) : layout := aligned_member b a (Layout size 1).

(** [storage_traits< size >]: [alignment], [native_alignment] and [type]; D/storage_traits.hpp 69-78, 80-87, 89-96,
    98-105, 107-114, 118-125, 163-170 *)
Definition traits_alignment (size : Z) : Z := if known_size size then size else 16.
Definition traits_native (b : abi) (size : Z) : Z :=
  if size =? 1 then 1
  else if (size =? 2) || (size =? 4) || (size =? 8) then int_align b size
  else if size =? 16 then if int128 b then int_align b 16 else max_align b
  else 1.
Definition traits_type (b : abi) (size : Z) : layout :=
  if (size =? 1) || (size =? 2) || (size =? 4) || (size =? 8) then Layout size (int_align b size)
  else if size =? 16 then if int128 b then Layout 16 (int_align b 16) else buffer_storage b 16 (max_align b)
  else buffer_storage b size 1.

(** [core_operations_emulated< size, a >]: [storage_type], [storage_alignment]; D/core_operations_emulated.hpp 33-43, 59 *)
Definition emulated_type (b : abi) (size a : Z) : layout :=
  if a >=? traits_native b size then traits_type b size else buffer_storage b size a.
Definition emulated_alignment (size a : Z) : Z :=
  if a >=? traits_alignment size then traits_alignment size else a.

(** [storage_alignment] in the assembler back ends: D/core_arch_ops_gcc_x86.hpp 66, 463, 932; gcc_aarch64 55, 461, 867,
    1271, 1690; gcc_aarch32 59, 341, 623, 920; gcc_arm 66, 332, 726, 1130; gcc_ppc 91, 351, 719, 1087; gcc_sparc 72, 157;
    gcc_alpha 97, 608; msvc_arm 126; msvc_x86 102, 582, 836 *)
Definition arch_alignment (p : processor) (storage : Z) : Z :=
  match p with
  | X86 _ _ _ _ _ _ => if storage =? 16 then 16 else if (storage =? 8) && has_cmpxchg8b p then 8 else storage
  | AArch64 => if storage =? 1 then 1 else if storage =? 2 then 2 else if storage =? 4 then 4 else if storage =? 8 then 8 else 16
  | AArch32 | Arm _ _ _ _ _ | PowerPC _ _ =>
      if storage =? 1 then 1 else if storage =? 2 then 2 else if storage =? 4 then 4 else 8
  | Sparc | Alpha => if storage =? 4 then 4 else 8
  | MsArm => traits_alignment storage
  | MsX86 _ _ _ _ _ => if storage =? 16 then 16 else if (storage =? 8) && has_cmpxchg8b p then 8 else traits_alignment storage
  end.

(** [storage_type] and [storage_alignment] of a lock-free class: the assembler as above; D/core_ops_gcc_atomic.hpp 56, 59;
    D/core_ops_gcc_sync.hpp 65, 68; D/core_ops_linux_arm.hpp 91, 94; D/core_ops_windows.hpp 65, 68.  [a]: the parameter
    [Alignment] of the lock-based class. *)
Definition class_type (b : abi) (i : implementation) (a : Z) : layout :=
  match made_of i with
  | LockPool => emulated_type b (storage_bytes i) a
  | _ => traits_type b (storage_bytes i)
  end.
Definition class_alignment (t : target) (i : implementation) (a : Z) : Z :=
  match made_of i with
  | LockPool => emulated_alignment (storage_bytes i) a
  | CompilerAtomic | CompilerSync | Interlocked => traits_alignment (storage_bytes i)
  | KernelHelper => 4
  | Assembler => match arch t with Some p => arch_alignment p (storage_bytes i) | None => 0 end
  end.

(** [atomic< T >]: D/atomic_impl.hpp 73-87.  The classes derived from [base_atomic_common] have no further members and no
    virtual functions, so [sizeof] and [alignof] are those of this class.  A lock-based class is
    [core_operations_emulated< Size, storage_traits< Size >::alignment >], D/core_arch_operations.hpp 38-40. *)
Definition member_alignment (t : target) (i : implementation) (a align : Z) : Z :=
  if align <=? class_alignment t i a then class_alignment t i a else align.
Definition atomic_member (t : target) (b : abi) (i : implementation) (align : Z) : Z * layout :=
  let a := traits_alignment (storage_bytes i) in (member_alignment t i a align, class_type b i a).
Definition atomic_layout (t : target) (b : abi) (type : layout) : option layout :=
  match atomic_class t (l_size type) with
  | Some i => let (a, storage) := atomic_member t b i (l_align type) in Some (aligned_member b a storage)
  | None => None
  end.
(** [atomic_flag]: D/atomic_flag_impl.hpp 51-58 *)
Definition flag_layout (t : target) (b : abi) : option layout :=
  match flag_class t with
  | Some i => let a := traits_alignment (storage_bytes i) in Some (aligned_member b (class_alignment t i a) (class_type b i a))
  | None => None
  end.

(** [atomic_ref< T >]: [storage_type] and [required_alignment], D/atomic_ref_impl.hpp 73-87; the lock-based class is
    [core_operations_emulated< sizeof(T), alignof(T) >]. *)
Definition ref_storage (t : target) (b : abi) (type : layout) : option layout :=
  match ref_class t (l_size type) with Some i => Some (class_type b i (l_align type)) | None => None end.
Definition required_alignment (t : target) (type : layout) : option Z :=
  match ref_class t (l_size type) with
  | Some i => Some (member_alignment t i (l_align type) (l_align type))
  | None => None
  end.
(** the assertion of the constructor, include/boost/atomic/atomic_ref.hpp 58-59 and ipc_atomic_ref.hpp 58-59 *)
Definition ref_assertion (required address : Z) : bool := Z.land address (required - 1) =? 0.
