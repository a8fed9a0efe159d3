(** * Integer atomics: the [atomic<integer>] front end on every lock-free back end.

    [D] abbreviates include/boost/atomic/detail. *)
From Coq Require Import ZArith List Bool.
From Verif Require Import SpecInt SpecLin Order Conv Prog Word CoreModel ExtraModel.
Open Scope Z_scope.
Open Scope prog_scope.

(** Which [core_operations] class serves the object (D/platform.hpp picks one). *)
Inductive ckind :=
| KGccAtomic (old_gcc : bool)   (* D/core_ops_gcc_atomic.hpp *)
| KGccSync (plain : bool)       (* D/core_ops_gcc_sync.hpp *)
| KX86                          (* D/core_arch_ops_gcc_x86.hpp, 1, 2, 4, 8 bytes *)
| KX86D (vec : bool)            (* the same, cmpxchg8b / cmpxchg16b; also D/core_arch_ops_msvc_x86.hpp 570-760 *)
| KLinuxArm                     (* D/core_ops_linux_arm.hpp *)
| KSparc                        (* D/core_arch_ops_gcc_sparc.hpp *)
| KLlsc                         (* D/core_arch_ops_gcc_{alpha,ppc,arm,aarch32}.hpp, aarch64 without LSE *)
| KLlscD                        (* D/core_arch_ops_gcc_{arm,aarch32}.hpp, 8 bytes *)
| KLse                          (* D/core_arch_ops_gcc_aarch64.hpp with LSE, 1, 2, 4, 8 bytes *)
| KWindows (intr : bool)        (* D/core_ops_windows.hpp *)
| KMsvc (intr : bool)           (* D/core_arch_ops_msvc_x86.hpp, 1, 2, 4, 8 bytes *)
| KMsvcD (vec : bool)           (* the same, cmpxchg16b *)
| KMsvcArm.                     (* D/core_arch_ops_msvc_arm.hpp, 1, 2, 4, 8 bytes *)

(** Which [extra_operations] class (D/platform.hpp; any combination is allowed here,
    which covers every one the library configures). *)
Inductive xkind := XGeneric | XX86 | XLlsc (result_opaque lse : bool).

(** An atomic object: the value type (signedness, bits), the storage bits, the classes. *)
Record obj := mkobj { o_sg : bool; o_vw : Z; o_w : Z; o_core : ckind; o_extra : xkind }.

(** A back end at its native width. *)
Definition base_core (k : ckind) (w : Z) : core :=
  match k with
  | KGccAtomic old => gcc_atomic old w
  | KGccSync p => gcc_sync p w
  | KX86 => x86 w
  | KX86D vec => dcas_x86 vec w
  | KLinuxArm => linux_arm
  | KSparc => sparc w
  | KLlsc => llsc_native w
  | KLlscD => llsc_dword
  | KLse => aarch64_lse w
  | KWindows i => windows i
  | KMsvc i => msvc_x86 i w
  | KMsvcD vec => msvc_dcas_x86_64 vec
  | KMsvcArm => msvc_arm w
  end.

(** The storage widths a back end comes in. *)
Definition kind_width (k : ckind) (w : Z) : Prop :=
  match k with KLinuxArm | KWindows _ => w = 32 | KLlscD => w = 64 | KMsvcD _ => w = 128 | _ => True end.

(** Back ends that keep small values in wider storage: D/core_ops_gcc_atomic.hpp 170-300,
    D/core_ops_gcc_sync.hpp 191-260, D/core_ops_linux_arm.hpp 144-154, D/core_arch_ops_gcc_sparc.hpp
    138-148, D/core_ops_windows.hpp 184-193 and the LL/SC ones. *)
Definition kind_widens (k : ckind) : bool :=
  match k with KGccAtomic _ | KGccSync _ | KLinuxArm | KSparc | KLlsc | KWindows _ => true | _ => false end.

Definition obj_ok (o : obj) : Prop :=
  0 < o_vw o <= o_w o /\ kind_width (o_core o) (o_w o) /\ (o_vw o = o_w o \/ kind_widens (o_core o) = true).

Definition obj_core (o : obj) : core :=
  let c := base_core (o_core o) (o_w o) in
  if o_vw o =? o_w o then c
  else match o_core o with
       | KLlsc => llsc_narrow (o_sg o) (o_vw o) (o_w o)
       | _ => extending (o_sg o) (o_vw o) c
       end.

(** D/extra_operations_fwd.hpp 29-30 and D/atomic_impl.hpp 638: [extra_operations< core_operations >]
    takes the default [Size = sizeof(storage_type)]: the storage size, not the value size. *)
Definition obj_extra (o : obj) : extra :=
  let c := obj_core o in
  match o_extra o with
  | XGeneric => extra_generic (o_sg o) (c_bits c) c
  | XX86 => extra_x86 (o_sg o) c
  | XLlsc ro lse => extra_llsc ro lse (o_sg o) c
  end.

(** D/atomic_impl.hpp 622-985, class base_atomic< T, int, Interprocess >.
    [static_cast< storage_type >(v)] is [wrap w v]; [integral_truncate< value_type >] is applied to
    what the operations return (load 679-685, fetch_* 687-695, 737-753, exchange 697-700,
    add ... bitwise_complement 767-803; none for opaque_* 805-838, *_and_test 840-873 and
    bit_test_and_* 875-891).  compare_exchange_* (702-735) through the _impl functions 962-985 with
    std::true_type; the std::false_type version (955-960, 972-976) reads and writes [expected] in
    place, which for equal sizes is the same conversion.  [enc] and [dec] are the conversions
    of the value to and from the storage.  The operators ++, --, +=, -=, &=, |=, ^=
    (893-937) are calls of the members modelled here. *)
Definition front (c : core) (x : extra) (enc dec : Z -> Z) (mo : morder) (a : addr) (o : iop) : wprog iret :=
  match o with
  | Store v => c_store c mo a (enc v) ;;; Ret RUnit
  | Load => r <- c_load c mo a ;; Ret (RVal (dec r))
  | Exchange v => r <- c_exchange c a (enc v) ;; Ret (RVal (dec r))
  | CasStrong e d => '(b, r) <- c_cas c a (enc e) (enc d) ;; Ret (RCas b (dec r))
  | CasWeak e d => '(b, r) <- c_casw c a (enc e) (enc d) ;; Ret (RCas b (dec r))
  | Rmw Fetch (Bin b v) => r <- c_fetch c b a (enc v) ;; Ret (RVal (dec r))
  | Rmw Fetch (Un u) => r <- x_fetch_un x u a ;; Ret (RVal (dec r))
  | Rmw Result (Bin b v) => r <- x_bin x b a (enc v) ;; Ret (RVal (dec r))
  | Rmw Result (Un u) => r <- x_un x u a ;; Ret (RVal (dec r))
  | Rmw Opaque (Bin b v) => x_opaque_bin x b a (enc v) ;;; Ret RUnit
  | Rmw Opaque (Un u) => x_opaque_un x u a ;;; Ret RUnit
  | Rmw Test (Bin b v) => r <- x_test_bin x b a (enc v) ;; Ret (RBool r)
  | Rmw Test (Un u) => r <- x_test_un x u a ;; Ret (RBool r)
  | BitTest k i => r <- x_bit x k a i ;; Ret (RBool r)
  end.
Definition int_front (c : core) (x : extra) (sg : bool) (vw : Z) : morder -> addr -> iop -> wprog iret :=
  front c x (wrap (c_bits c)) (integral_truncate sg (c_bits c) vw).
Definition int_prog (ob : obj) : morder -> addr -> iop -> wprog iret :=
  int_front (obj_core ob) (obj_extra ob) (o_sg ob) (o_vw ob).

(** A world of atomic integers: the object at every address.  A call names the
    object, the memory order and the operation. *)
Definition world := addr -> obj.
Definition icall := (addr * (morder * iop))%type.
Definition int_impl (W : world) (c : icall) : wprog iret :=
  int_prog (W (fst c)) (fst (snd c)) (fst c) (snd (snd c)).

(** Memory holding the values [v]: the constructor (atomic_impl.hpp 654) stores
    [static_cast< storage_type >(v)].  [n] counts the writes so far. *)
Definition int_mem (W : world) (v : addr -> Z) (n : addr -> Z) : wmem :=
  fun a => mkcell (wrap (c_bits (obj_core (W a))) (v a)) (n a).

(** ** Which calls are faithful on widened storage

    For a value type smaller than the storage the extra operations do not
    restore the extension of the value (see [obj_extra]), so some calls leave a
    storage word that is not the one [store] would have written, or test the
    wrong bits.  [wide_safe] is the list of calls that are free of this. *)
Definition keeps_ext (o : obj) : bool :=   (* add and sub go through the re-extending fetch_add/fetch_sub *)
  match o_extra o with
  | XGeneric | XX86 => negb (c_full_cas (obj_core o))
  | XLlsc _ lse => lse && negb (c_full_cas (obj_core o))
  end.
Definition keeps_ext_opaque (o : obj) : bool :=   (* opaque_add and opaque_sub likewise *)
  match o_extra o with
  | XGeneric => true
  | XX86 => false
  | XLlsc ro lse => if ro then lse && negb (c_full_cas (obj_core o)) else true
  end.

Definition is_arith (b : binop) : bool := match b with Add | Sub => true | _ => false end.

Definition wide_safe (ob : obj) (o : iop) : bool :=
  match o with
  | Store _ | Load | Exchange _ | CasStrong _ _ | CasWeak _ _ => true
  | Rmw Fetch (Bin _ _) => true
  | Rmw Result (Bin b _) => negb (is_arith b) || keeps_ext ob
  | Rmw Opaque (Bin b _) => negb (is_arith b) || keeps_ext_opaque ob
  | Rmw Test (Bin b _) => negb (is_arith b)
  | Rmw _ (Un Not) => o_sg ob
  | Rmw _ (Un Neg) => false
  | BitTest _ i => negb (o_sg ob) || (i <? o_vw ob - 1)
  end.

(** ** Vocabulary of the statements *)

(** Legal calls: arguments of the value type, bit numbers below its width; on
    widened storage only the calls listed above. *)
Definition icall_ok (W : world) (c : icall) : Prop :=
  iop_ok (o_sg (W (fst c))) (o_vw (W (fst c))) (snd (snd c)) /\
  (o_vw (W (fst c)) = o_w (W (fst c)) \/ wide_safe (W (fst c)) (snd (snd c)) = true).

(** What the call means: ordinary integers of the width of the value type. *)
Definition int_spec (W : world) (a : nat) (v : Z) (o : morder * iop) (r : iret) (v' : Z) : Prop :=
  istep (o_sg (W a)) (o_vw (W a)) v (snd o) r v'.

(** All executions: any calls by any threads, any interleaving, any luck. *)
Definition int_run (W : world) (v0 n0 : addr -> Z) (l : list (sched luck icall)) :=
  run wexec (int_impl W) (start (int_mem W v0 n0)) l.

Definition world_ok (W : world) (v0 : addr -> Z) : Prop :=
  forall a, obj_ok (W a) /\ rng (o_sg (W a)) (o_vw (W a)) (v0 a).

(** The value the object at [a] shows to the next [load]. *)
Definition shown (W : world) (m : wmem) (a : addr) : Z :=
  integral_truncate (o_sg (W a)) (c_bits (obj_core (W a))) (o_vw (W a)) (val (m a)).

(** The storage word [store(v)] would write. *)
Definition stored_word (W : world) (a : addr) (v : Z) : Z := wrap (c_bits (obj_core (W a))) v.
Arguments shown W m a%nat_scope.
