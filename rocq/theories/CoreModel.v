(** * Lock-free back ends (core operations).

    [D] below abbreviates include/boost/atomic/detail.  Each definition models
    one static member function of the cited struct; a by-reference [expected]
    is returned next to the boolean.  Fences contained in the functions are
    modelled in FenceModel.v, not here.  Values of type [storage_type] are
    integers in [0, 2^w); every arithmetic C++ expression converted to
    [storage_type] is written [wrap w (...)]. *)
From Coq Require Import ZArith List Bool.
From Verif Require Import SpecInt SpecLin Order Conv Prog Word.
Open Scope Z_scope.
Open Scope prog_scope.

(** The static interface shared by all [core_operations] classes
    (D/core_operations_fwd.hpp; e.g. D/core_ops_gcc_atomic.hpp 54-155). *)
Record core := mkcore {
  c_bits : Z;            (* storage_size * 8 *)
  c_full_cas : bool;     (* full_cas_based *)
  c_load : morder -> addr -> wprog Z;
  c_store : morder -> addr -> Z -> wprog unit;
  c_exchange : addr -> Z -> wprog Z;
  c_cas : addr -> Z -> Z -> wprog (bool * Z);    (* compare_exchange_strong *)
  c_casw : addr -> Z -> Z -> wprog (bool * Z);   (* compare_exchange_weak *)
  c_fetch : binop -> addr -> Z -> wprog Z        (* fetch_add/sub/and/or/xor *)
}.

(** ** GCC __atomic intrinsics *)

(** D/core_ops_gcc_atomic.hpp 54-155 struct core_operations_gcc_atomic.
    [old_gcc]: the branch 71-76 that uses exchange for seq_cst stores.
    The __atomic_* built-ins are modelled as single actions. *)
Definition gcc_atomic (old_gcc : bool) (w : Z) : core := {|
  c_bits := w; c_full_cas := false;
  c_load := fun _ a => (ld a);
  c_store := fun o a v => if old_gcc && is_seq_cst o then (xchg a v) ;;; Ret tt else (st a v);
  c_exchange := fun a v => (xchg a v);
  c_cas := fun a e d => (cas a e d);
  c_casw := fun a e d => (casw a e d);
  c_fetch := fun b a v => (rmw a w (Bin b v))
|}.

(** ** GCC __sync intrinsics *)

(** D/core_ops_gcc_sync.hpp 138-153: compare_exchange_strong; [expected] is only written on failure. *)
Definition sync_cas (a : addr) (e d : Z) : wprog (bool * Z) :=
  '(_, old) <- (cas a e d) ;;
  if old =? e then Ret (true, e) else Ret (false, old).

(** D/core_ops_gcc_sync.hpp 62-190 struct core_operations_gcc_sync.
    [plain] is plain_stores_loads_are_atomic (77). Load through
    __sync_val_compare_and_swap: 98-105. *)
Definition gcc_sync (plain : bool) (w : Z) : core := {|
  c_bits := w; c_full_cas := false;
  c_load := fun _ a => if plain then (ld a) else ('(_, old) <- (cas a 0 0) ;; Ret old);
  c_store := fun _ a v => if plain then (st a v) else (xchg a v) ;;; Ret tt;
  c_exchange := fun a v => (xchg a v);
  c_cas := sync_cas;
  c_casw := sync_cas;
  c_fetch := fun b a v => (rmw a w (Bin b v))
|}.

(** ** CAS-based building blocks *)

(** A loop [while (!compare_exchange_weak(storage, old_val, f(old_val))) {} return old_val;]
    starting from [old_val = i]. *)
Definition cas_loop (casw : addr -> Z -> Z -> wprog (bool * Z)) (a : addr) (f : Z -> Z) (i : Z) : wprog Z :=
  loop i (fun old =>
    '(b, e) <- casw a old (f old) ;;
    if b then Ret (inr e) else Ret (inl e)).

(** D/core_ops_cas_based.hpp 37-75: fetch_add, fetch_sub, fetch_and, fetch_or, fetch_xor
    (initial value by non_atomic_load). *)
Definition cas_based_fetch (w : Z) (casw : addr -> Z -> Z -> wprog (bool * Z))
    (b : binop) (a : addr) (v : Z) : wprog Z :=
  i <- (racy a w) ;;
  cas_loop casw a (fun old => wrap w (bin_apply b old v)) i.

(** D/cas_based_exchange.hpp 35-41: exchange. *)
Definition cas_based_exchange (w : Z) (casw : addr -> Z -> Z -> wprog (bool * Z)) (a : addr) (v : Z) : wprog Z :=
  i <- (racy a w) ;;
  cas_loop casw a (fun _ => v) i.

(** D/extending_cas_based_arithmetic.hpp 39-63: fetch_add and fetch_sub of a
    [vw]-bit value kept in wider storage; the other operations are inherited. *)
Definition extending (sg : bool) (vw : Z) (c : core) : core := {|
  c_bits := c_bits c; c_full_cas := c_full_cas c;
  c_load := c_load c; c_store := c_store c; c_exchange := c_exchange c;
  c_cas := c_cas c; c_casw := c_casw c;
  c_fetch := fun b a v =>
    match b with
    | Add | Sub =>
        i <- (racy a (c_bits c)) ;;
        cas_loop (c_casw c) a
          (fun old => integral_extend sg false vw (c_bits c) (wrap vw (bin_apply b old v))) i
    | _ => c_fetch c b a v
    end
|}.

(** ** GCC asm for x86 *)

(** D/core_arch_ops_gcc_x86.hpp 158-170 (and 264, 373, 882): the macro
    BOOST_ATOMIC_DETAIL_CAS_LOOP, "1: mov arg,new; op eax,new; lock cmpxchg new,storage; jne 1b"
    after the plain read [res = storage]. *)
Definition x86_loop (w : Z) (b : binop) (a : addr) (v : Z) : wprog Z :=
  i <- (ld a) ;;
  cas_loop (fun a e d => (cas a e d)) a (fun res => wrap w (bin_apply b v res)) i.

(** D/core_arch_ops_gcc_x86.hpp 60-112 core_arch_operations_gcc_x86 and its
    1, 2, 4, 8 byte users (114-222, 224-331, 333-440, 809-910). *)
Definition x86 (w : Z) : core := {|
  c_bits := w; c_full_cas := false;
  c_load := fun _ a => (ld a);
  c_store := fun o a v => if is_seq_cst o then (xchg a v) ;;; Ret tt else (st a v);
  c_exchange := fun a v => (xchg a v);
  c_cas := fun a e d => (cas a e d);
  c_casw := fun a e d => (cas a e d);
  c_fetch := fun b a v =>
    match b with
    | Add => (rmw a w (Bin Add v))
    | Sub => (rmw a w (Bin Add (wrap w (- v))))
    | _ => x86_loop w b a v
    end
|}.

(** "mov lo; mov hi; 1: lock cmpxchg8b/16b; jne 1b": two separate half reads,
    then a loop in which cmpxchg reloads the expected pair
    (D/core_arch_ops_gcc_x86.hpp 503-536, 718-800, 957-968, 1090-1126). *)
Definition dcas_swap (w : Z) (a : addr) (v : Z) : wprog Z :=
  lo <- (ldhalf a w false) ;;
  hi <- (ldhalf a w true) ;;
  cas_loop (fun a e d => (cas a e d)) a (fun _ => v) (join w lo hi).

(** D/core_arch_ops_gcc_x86.hpp 452-800 gcc_dcas_x86 (w = 64) and 919-1130
    gcc_dcas_x86_64 (w = 128). [vec]: the object is aligned and vector moves
    are available, so that plain loads and stores are single moves. A load
    without them is cmpxchg with equal but arbitrary comparand and
    replacement (583-609, 1013-1045). *)
Definition dcas_x86_base (vec : bool) (w : Z) : core := {|
  c_bits := w; c_full_cas := true;
  c_load := fun _ a =>
    if vec then (ld a)
    else g <- (racy a w) ;; '(_, old) <- (cas a g g) ;; Ret old;
  c_store := fun o a v =>
    if vec && negb (is_seq_cst o) then (st a v) else dcas_swap w a v ;;; Ret tt;
  c_exchange := dcas_swap w;
  c_cas := fun a e d => (cas a e d);
  c_casw := fun a e d => (cas a e d);
  c_fetch := fun _ _ _ => Ret 0  (* not a member; supplied by core_operations_cas_based *)
|}.

(** D/core_ops_cas_based.hpp 30-35: struct core_operations_cas_based. *)
Definition cas_based (c : core) : core := {|
  c_bits := c_bits c; c_full_cas := c_full_cas c;
  c_load := c_load c; c_store := c_store c; c_exchange := c_exchange c;
  c_cas := c_cas c; c_casw := c_casw c;
  c_fetch := cas_based_fetch (c_bits c) (c_casw c)
|}.

(** D/core_arch_ops_gcc_x86.hpp 802-806, 1132-1136. *)
Definition dcas_x86 (vec : bool) (w : Z) : core := cas_based (dcas_x86_base vec w).

(** ** Linux kernel helper on old ARM *)

(** D/core_ops_linux_arm.hpp 119-135: compare_exchange_weak.  The kernel helper is
    modelled as possibly failing spuriously, which is weaker than its documentation. *)
Definition karm_casw (a : addr) (e d : Z) : wprog (bool * Z) :=
  b <- (kcas a e d) ;;
  if b then Ret (true, e) else (v <- (ld a) ;; Ret (false, v)).

(** D/core_ops_linux_arm.hpp 103-117: compare_exchange_strong. *)
Definition karm_cas (a : addr) (e d : Z) : wprog (bool * Z) :=
  loop tt (fun _ =>
    '(b, tmp) <- karm_casw a e d ;;
    if b then Ret (inr (true, e))
    else if tmp =? e then Ret (inl tt)
    else Ret (inr (false, tmp))).

(** D/core_ops_linux_arm.hpp 80-136 linux_arm_cas, 138-154 core_operations (4 byte storage). *)
Definition linux_arm : core := cas_based {|
  c_bits := 32; c_full_cas := true;
  c_load := fun _ a => (ld a);
  c_store := fun _ a v => (st a v);
  c_exchange := cas_based_exchange 32 karm_casw;
  c_cas := karm_cas;
  c_casw := karm_casw;
  c_fetch := fun _ _ _ => Ret 0
|}.

(** ** SPARC *)

(** D/core_arch_ops_gcc_sparc.hpp 90-109, 175-194: "cas [a], previous, desired" then [expected = desired]. *)
Definition sparc_cas (a : addr) (e d : Z) : wprog (bool * Z) :=
  '(_, old) <- (cas a e d) ;; Ret (old =? e, old).

(** D/core_arch_ops_gcc_sparc.hpp 65-130 gcc_sparc_cas32 (swap instruction),
    150-208 gcc_sparc_cas64 (cas_based_exchange). *)
Definition sparc (w : Z) : core := cas_based {|
  c_bits := w; c_full_cas := true;
  c_load := fun _ a => (ld a);
  c_store := fun _ a v => (st a v);
  c_exchange := if w =? 32 then (fun a v => (xchg a v)) else cas_based_exchange w sparc_cas;
  c_cas := sparc_cas;
  c_casw := sparc_cas;
  c_fetch := fun _ _ _ => Ret 0
|}.

(** ** Load-linked / store-conditional *)

(** "1: ll original; op; sc result; bne 1b" (Alpha: D/core_arch_ops_gcc_alpha.hpp 115-337,
    626-848; PowerPC: D/core_arch_ops_gcc_ppc.hpp 139-157, 226-329, 486-589, 854-957, 1222-1325;
    ARM: D/core_arch_ops_gcc_arm.hpp 84-105, 178-309; AArch32: D/core_arch_ops_gcc_aarch32.hpp;
    AArch64 without LSE: D/core_arch_ops_gcc_aarch64.hpp 922-1250). *)
Definition ll_loop (a : addr) (f : Z -> Z) : wprog Z :=
  loop tt (fun _ =>
    '(x, tok) <- (ll a) ;;
    b <- (sc a tok (f x)) ;;
    if b then Ret (inr x) else Ret (inl tt)).

(** compare_exchange_weak (alpha 141-169, ppc 159-190, arm 107-141, aarch64 962-1007). *)
Definition ll_casw (a : addr) (e d : Z) : wprog (bool * Z) :=
  '(x, tok) <- (ll a) ;;
  if x =? e then (b <- (sc a tok d) ;; Ret (b, x)) else Ret (false, x).

(** compare_exchange_strong (alpha 171-207, ppc 192-224, arm 143-176, aarch64 1009-1055):
    the same, retried while the store-conditional fails. *)
Definition ll_cas (a : addr) (e d : Z) : wprog (bool * Z) :=
  loop tt (fun _ =>
    '(x, tok) <- (ll a) ;;
    if x =? e then
      (b <- (sc a tok d) ;; if b then Ret (inr (true, x)) else Ret (inl tt))
    else Ret (inr (false, x))).

(** [fix]: what is applied to the sum before the store-conditional. For
    native sizes it is truncation to the storage size. For 1 and 2 byte
    values kept in 4 byte storage it is the zapnot/sextb/sextw (alpha
    350-599), rlwinm/extsb/extsh (ppc 602-708, 970-1076), uxtb/sxtb/uxth/sxth
    (arm 586-960) instruction. *)
Definition llsc (w : Z) (fix_ : Z -> Z) : core := {|
  c_bits := w; c_full_cas := false;
  c_load := fun _ a => (ld a);
  c_store := fun _ a v => (st a v);
  c_exchange := fun a v => ll_loop a (fun _ => v);
  c_cas := ll_cas;
  c_casw := ll_casw;
  c_fetch := fun b a v =>
    match b with
    | Add | Sub => ll_loop a (fun x => fix_ (wrap w (bin_apply b x v)))
    | _ => ll_loop a (fun x => wrap w (bin_apply b x v))
    end
|}.

(** Byte/halfword zero extension (zapnot, rlwinm, uxtb/uxth) and sign
    extension (sextb/sextw, extsb/extsh, sxtb/sxth) of a [w]-bit register. *)
Definition reg_ext (sg : bool) (vw w : Z) (x : Z) : Z :=
  if sg then wrap w (sval vw (wrap vw x)) else wrap vw x.

Definition llsc_native (w : Z) : core := llsc w (fun x => x).
(** 8 bytes on ARM and AArch32: no plain load or store of two registers is atomic, so load is a lone load-linked
    (D/core_arch_ops_gcc_arm.hpp 1138-1166, D/core_arch_ops_gcc_aarch32.hpp 957-983) and store is exchange
    (arm 1133-1136) or the same loop (aarch32 925-955). *)
Definition llsc_dword : core := {|
  c_bits := 64; c_full_cas := false;
  c_load := fun _ a => '(x, _) <- (ll a) ;; Ret x;
  c_store := fun _ a v => ll_loop a (fun _ => v) ;;; Ret tt;
  c_exchange := c_exchange (llsc_native 64);
  c_cas := c_cas (llsc_native 64);
  c_casw := c_casw (llsc_native 64);
  c_fetch := c_fetch (llsc_native 64)
|}.
Definition llsc_narrow (sg : bool) (vw w : Z) : core := llsc w (reg_ext sg vw w).

(** ** AArch64 with LSE atomics *)

(** D/core_arch_ops_gcc_aarch64.hpp (HAS_LSE branches, e.g. 922-1250): swp, cas,
    ldadd (subtraction adds -v), ldclr with ~v, ldset, ldeor. *)
Definition aarch64_lse (w : Z) : core := {|
  c_bits := w; c_full_cas := false;
  c_load := fun _ a => (ld a);
  c_store := fun _ a v => (st a v);
  c_exchange := fun a v => (xchg a v);
  c_cas := sparc_cas;   (* cas original, desired; success = original == expected; expected = original *)
  c_casw := sparc_cas;
  c_fetch := fun b a v =>
    match b with
    | Sub => (rmw a w (Bin Add (wrap w (- v))))
    | And => (rmw a w (Bin And (wrap w (Z.lnot (wrap w (Z.lnot v)))))) (* v = ~v; ldclr clears the bits of v *)
    | _ => (rmw a w (Bin b v))
    end
|}.

(** ** Windows interlocked API and MSVC x86 *)

(** A fetch operation either by an interlocked intrinsic or, when [intr] is
    false, by the compare_exchange_strong loop after a plain volatile read. *)
Definition ms_bitop (intr : bool) (w : Z) (b : binop) (a : addr) (v : Z) : wprog Z :=
  if intr then (rmw a w (Bin b v))
  else i <- (ld a) ;; cas_loop sparc_cas a (fun res => wrap w (bin_apply b res v)) i.

(** D/core_ops_windows.hpp 61-103 core_operations_windows, 105-183
    core_operations<4>: store is an exchange, load adds 0, fetch_sub adds the
    negated operand. (The C++ negates a signed integer, which is undefined for
    its minimum; modelled as wrapping.) *)
Definition windows (intr : bool) : core := {|
  c_bits := 32; c_full_cas := false;
  c_load := fun _ a => (rmw a 32 (Bin Add 0));
  c_store := fun _ a v => (xchg a v) ;;; Ret tt;
  c_exchange := fun a v => (xchg a v);
  c_cas := sparc_cas;
  c_casw := sparc_cas;
  c_fetch := fun b a v =>
    match b with
    | Add => (rmw a 32 (Bin Add v))
    | Sub => (rmw a 32 (Bin Add (wrap 32 (- v))))
    | _ => ms_bitop intr 32 b a v
    end
|}.

(** D/core_arch_ops_msvc_x86.hpp 94-148 core_arch_operations_msvc_x86 and its
    users 150-214 (4 bytes), 216-262 and 264-383 (1 byte), 396-437 and 439-558
    (2 bytes), 770-817 (8 bytes). [intr] as in [ms_bitop]; the __asm loops read the
    storage, apply the operator and retry "lock cmpxchg". *)
Definition msvc_x86 (intr : bool) (w : Z) : core := {|
  c_bits := w; c_full_cas := false;
  c_load := fun _ a => (ld a);
  c_store := fun o a v => if is_seq_cst o then (xchg a v) ;;; Ret tt else (st a v);
  c_exchange := fun a v => (xchg a v);
  c_cas := sparc_cas;
  c_casw := sparc_cas;
  c_fetch := fun b a v =>
    match b with
    | Add => (rmw a w (Bin Add v))
    | Sub => (rmw a w (Bin Add (wrap w (- v))))
    | _ => ms_bitop intr w b a v
    end
|}.

(** D/core_arch_ops_msvc_arm.hpp 119-151 core_arch_operations_msvc_arm and its users 153-316 (1 byte),
    318-481 (2 bytes), 483-646 (4 bytes), 648-811 (8 bytes): __iso_volatile_load/store and one interlocked
    intrinsic per operation, of which the order selects the variant; fetch_sub adds the negated operand
    (130-134, with the same remark on the minimum as above). *)
Definition msvc_arm (w : Z) : core := {|
  c_bits := w; c_full_cas := false;
  c_load := fun _ a => (ld a);
  c_store := fun _ a v => (st a v);
  c_exchange := fun a v => (xchg a v);
  c_cas := sparc_cas;
  c_casw := sparc_cas;
  c_fetch := fun b a v =>
    match b with
    | Sub => (rmw a w (Bin Add (wrap w (- v))))
    | _ => (rmw a w (Bin b v))
    end
|}.

(** D/core_arch_ops_msvc_x86.hpp 823-885 msvc_dcas_x86_64. The first read in
    store (847) is a plain struct read. The 8 byte msvc_dcas_x86 (570-760) has
    the same structure as [dcas_x86]. *)
Definition msvc_dcas_x86_64 (vec : bool) : core := cas_based {|
  c_bits := 128; c_full_cas := true;
  c_load := fun _ a => if vec then (ld a) else '(_, old) <- (cas a 0 0) ;; Ret old;
  c_store := fun o a v =>
    if vec && negb (is_seq_cst o) then (st a v)
    else i <- (racy a 128) ;; cas_loop (fun a e d => (cas a e d)) a (fun _ => v) i ;;; Ret tt;
  c_exchange := cas_based_exchange 128 (fun a e d => (cas a e d));
  c_cas := fun a e d => (cas a e d);
  c_casw := fun a e d => (cas a e d);
  c_fetch := fun _ _ _ => Ret 0
|}.

(** ** AArch64 128-bit: ldxp/stxp *)

(** One ldxp: two 64-bit halves that need not come from the same instant,
    and the reservation. *)
Definition ldxp (a : addr) : wprog ((Z * Z) * Z) :=
  '(lo, tok) <- (llhalf a 128 false) ;;
  '(hi, _) <- (llhalf a 128 true) ;;
  Ret ((lo, hi), tok).

(** adds/adc, subs/sbc, and, orr, eor on the halves (D/core_arch_ops_gcc_aarch64.hpp 1855-2018). *)
Definition pair_apply (b : binop) (lo hi vlo vhi : Z) : Z * Z :=
  match b with
  | Add => (wrap 64 (lo + vlo), wrap 64 (hi + vhi + (if lo + vlo <? 2 ^ 64 then 0 else 1)))
  | Sub => (wrap 64 (lo - vlo), wrap 64 (hi - vhi - (if vlo <=? lo then 0 else 1)))
  | And => (Z.land lo vlo, Z.land hi vhi)
  | Or => (Z.lor lo vlo, Z.lor hi vhi)
  | Xor => (Z.lxor lo vlo, Z.lxor hi vhi)
  end.

(** store (1691-1728), load (1730-1767), exchange (1769-1794): ldxp; stxp; cbnz. *)
Definition ldxp_loop (a : addr) (f : Z -> Z -> Z) : wprog Z :=
  loop tt (fun _ =>
    '((lo, hi), tok) <- ldxp a ;;
    b <- (sc a tok (f lo hi)) ;;
    if b then Ret (inr (join 128 lo hi)) else Ret (inl tt)).

(** compare_exchange_weak (1796-1828): a mismatch branches to the end without a store. *)
Definition pair_casw (a : addr) (e d : Z) : wprog (bool * Z) :=
  '((lo, hi), tok) <- ldxp a ;;
  if (lo =? half 128 false e) && (hi =? half 128 true e)
  then (b <- (sc a tok d) ;; Ret (b, join 128 lo hi))
  else Ret (false, join 128 lo hi).

(** compare_exchange_strong (1830-1862). *)
Definition pair_cas (a : addr) (e d : Z) : wprog (bool * Z) :=
  loop tt (fun _ =>
    '((lo, hi), tok) <- ldxp a ;;
    if (lo =? half 128 false e) && (hi =? half 128 true e)
    then (b <- (sc a tok d) ;; if b then Ret (inr (true, join 128 lo hi)) else Ret (inl tt))
    else Ret (inr (false, join 128 lo hi))).

(** D/core_arch_ops_gcc_aarch64.hpp 1682-2031 core_arch_operations<16>. *)
Definition aarch64_pair : core := {|
  c_bits := 128; c_full_cas := false;
  c_load := fun _ a => ldxp_loop a (fun lo hi => join 128 lo hi);
  c_store := fun _ a v => ldxp_loop a (fun _ _ => v) ;;; Ret tt;
  c_exchange := fun a v => ldxp_loop a (fun _ _ => v);
  c_cas := pair_cas;
  c_casw := pair_casw;
  c_fetch := fun b a v =>
    ldxp_loop a (fun lo hi =>
      let (rlo, rhi) := pair_apply b lo hi (half 128 false v) (half 128 true v) in join 128 rlo rhi)
|}.
