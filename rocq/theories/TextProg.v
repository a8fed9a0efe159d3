(** * The layers of the library, put together from their text.

    TextTable.v has the function bodies; here the classes are stacked as the
    templates of the library stack them, down to intrinsics, to the kernel helper
    and, for the back ends in assembler, to their models (CoreModel.v, ExtraModel.v;
    AsmBlocks.v ties these to their text).  A call names a member function and has
    its arguments, memory orders included, as a user writes it.
    [D] abbreviates include/boost/atomic/detail. *)
From Coq Require Import ZArith List String Bool.
From Verif Require Import SpecInt SpecLin SpecTyped Order Conv Prog Word CoreModel ExtraModel IntModel TypedModel
  TextModel SpecText TextTable.
Import ListNotations.
Open Scope string_scope.
Open Scope list_scope.
Open Scope Z_scope.
Open Scope prog_scope.

(** ** What a layer offers to the one above *)

(** Core operations for each pair of memory orders (success, failure). *)
Definition family := morder -> morder -> core.
Definition xfamily := morder -> extra.

Definition fetch_names : list (string * binop) :=
  [("fetch_add", Add); ("fetch_sub", Sub); ("fetch_and", And); ("fetch_or", Or); ("fetch_xor", Xor)].
Definition fetch_name (b : binop) : string :=
  match b with Add => "fetch_add" | Sub => "fetch_sub" | And => "fetch_and" | Or => "fetch_or" | Xor => "fetch_xor" end.

(** A [storage_type] parameter. *)
Definition word_arg (I : inst) (v : val) : option Z :=
  match convert I TStorage v with Some (VI TStorage z) => Some z | _ => None end.

(** Calls of the members of a [core_operations] class. *)
Definition core_members (I : inst) (C : family) (a : addr) (f : string) (vs : list val) : option answer :=
  match vs with
  | [VLoc; VO o] => if String.eqb f "load" then Some (AnsZ (c_load (C o o) o a)) else None
  | [VLoc; v; VO o] =>
      match word_arg I v with
      | Some z =>
          if String.eqb f "store" then Some (AnsU (c_store (C o o) o a z))
          else if String.eqb f "exchange" then Some (AnsZ (c_exchange (C o o) a z))
          else match assoc f fetch_names with
               | Some b => Some (AnsZ (c_fetch (C o o) b a z))
               | None => None
               end
      | None => None
      end
  | [VLoc; e; d; VO s; VO o] =>
      match word_arg I e, word_arg I d with
      | Some e, Some d =>
          if String.eqb f "compare_exchange_strong" then Some (AnsC (c_cas (C s o) a e d))
          else if String.eqb f "compare_exchange_weak" then Some (AnsC (c_casw (C s o) a e d))
          else None
      | _, _ => None
      end
  | _ => None
  end.

Definition bin_names : list (string * binop) :=
  [("add", Add); ("sub", Sub); ("bitwise_and", And); ("bitwise_or", Or); ("bitwise_xor", Xor)].
Definition opaque_names : list (string * binop) :=
  [("opaque_add", Add); ("opaque_sub", Sub); ("opaque_and", And); ("opaque_or", Or); ("opaque_xor", Xor)].
Definition test_names : list (string * binop) :=
  [("add_and_test", Add); ("sub_and_test", Sub); ("and_and_test", And); ("or_and_test", Or); ("xor_and_test", Xor)].
Definition bit_names : list (string * bitop) :=
  [("bit_test_and_set", BSet); ("bit_test_and_reset", BReset); ("bit_test_and_complement", BCompl)].
Definition fetch_un_names : list (string * unop) := [("fetch_negate", Neg); ("fetch_complement", Not)].
Definition un_names : list (string * unop) := [("negate", Neg); ("bitwise_complement", Not)].
Definition opaque_un_names : list (string * unop) := [("opaque_negate", Neg); ("opaque_complement", Not)].
Definition test_un_names : list (string * unop) := [("negate_and_test", Neg); ("complement_and_test", Not)].

(** Calls of the members of an [extra_operations] class. *)
Definition extra_members (I : inst) (X : xfamily) (a : addr) (f : string) (vs : list val) : option answer :=
  match vs with
  | [VLoc; VO o] =>
      match assoc f fetch_un_names, assoc f un_names, assoc f opaque_un_names, assoc f test_un_names with
      | Some u, _, _, _ => Some (AnsZ (x_fetch_un (X o) u a))
      | _, Some u, _, _ => Some (AnsZ (x_un (X o) u a))
      | _, _, Some u, _ => Some (AnsU (x_opaque_un (X o) u a))
      | _, _, _, Some u => Some (AnsB (x_test_un (X o) u a))
      | _, _, _, _ => None
      end
  | [VLoc; VI TUInt i; VO o] =>
      match assoc f bit_names with Some k => Some (AnsB (x_bit (X o) k a i)) | None => None end
  | [VLoc; v; VO o] =>
      match word_arg I v with
      | Some z =>
          match assoc f bin_names, assoc f opaque_names, assoc f test_names with
          | Some b, _, _ => Some (AnsZ (x_bin (X o) b a z))
          | _, Some b, _ => Some (AnsU (x_opaque_bin (X o) b a z))
          | _, _, Some b => Some (AnsB (x_test_bin (X o) b a z))
          | _, _, _ => None
          end
      | None => None
      end
  | _ => None
  end.

Definition either {A B T} (M M' : A -> B -> option T) (f : A) (vs : B) : option T :=
  match M f vs with Some r => Some r | None => M' f vs end.
Definition none (f : string) (vs : list val) : option answer := None.

(** Names with a qualifier refer to the layer below, those without to intrinsics. *)
Definition external (below : string -> list val -> option answer) (intrinsic : string -> list val -> option answer)
    (q f : string) (vs : list val) : option answer :=
  if String.eqb q "" || String.eqb q "Derived" then intrinsic f vs else below f vs.

(** ** Intrinsics *)

(** [__atomic_*].  [be]: big-endian; [__atomic_test_and_set] and [__atomic_clear] work on the first byte
    (TypedModel.v, [flag_prog]). *)
Definition gcc_atomic_intrinsics (w : Z) (be : bool) (a : addr) (f : string) (vs : list val) : option answer :=
  let sh := if be then w - 8 else 0 in
  match vs with
  | [VLoc; VO _] =>
      if String.eqb f "__atomic_load_n" then Some (AnsZ (ld a))
      else if String.eqb f "__atomic_test_and_set" then
        Some (AnsB (r <- rmw a w (Bin Or (2 ^ sh)) ;; Ret (negb (Z.land (r / 2 ^ sh) 255 =? 0))))
      else if String.eqb f "__atomic_clear" then
        Some (AnsU (rmw a w (Bin And (Z.lnot (255 * 2 ^ sh))) ;;; Ret tt))
      else None
  | [VLoc; VI TStorage v; VO _] =>
      if String.eqb f "__atomic_store_n" then Some (AnsU (st a v))
      else if String.eqb f "__atomic_exchange_n" then Some (AnsZ (xchg a v))
      else match assoc f [("__atomic_fetch_add", Add); ("__atomic_fetch_sub", Sub); ("__atomic_fetch_and", And);
                          ("__atomic_fetch_or", Or); ("__atomic_fetch_xor", Xor)] with
           | Some b => Some (AnsZ (rmw a w (Bin b v)))
           | None => None
           end
  | [VLoc; VI TStorage e; VI TStorage d; VB weak; VO _; VO _] =>
      if String.eqb f "__atomic_compare_exchange_n" then Some (AnsC (if weak then casw a e d else cas a e d)) else None
  | _ => None
  end.
(** [core_arch_operations::load] (D/core_arch_ops_gcc_aarch64.hpp): one load. *)
Definition gcc_atomic_below (a : addr) (f : string) (vs : list val) : option answer :=
  match vs with [VLoc; VO _] => if String.eqb f "load" then Some (AnsZ (ld a)) else None | _ => None end.

(** [__sync_*]. *)
Definition gcc_sync_intrinsics (I : inst) (w : Z) (a : addr) (f : string) (vs : list val) : option answer :=
  match vs with
  | [VLoc] => if String.eqb f "__sync_lock_release" then Some (AnsU (st a 0)) else None
  | [VLoc; v] =>
      match word_arg I v with
      | Some z =>
          if String.eqb f "__sync_lock_test_and_set" then Some (AnsZ (xchg a z))
          else match assoc f [("__sync_fetch_and_add", Add); ("__sync_fetch_and_sub", Sub); ("__sync_fetch_and_and", And);
                              ("__sync_fetch_and_or", Or); ("__sync_fetch_and_xor", Xor)] with
               | Some b => Some (AnsZ (rmw a w (Bin b z)))
               | None => None
               end
      | None => None
      end
  | [VLoc; VI TStorage e; VI TStorage d] =>
      if String.eqb f "__sync_val_compare_and_swap" then Some (AnsZ ('(_, old) <- cas a e d ;; Ret old)) else None
  | _ => None
  end.

(** The helper of the Linux kernel answers 0 when it has stored. *)
Definition linux_arm_intrinsics (a : addr) (f : string) (vs : list val) : option answer :=
  match vs with
  | [VI TStorage e; VI TStorage d; VLoc] =>
      if String.eqb f "kernel_cmpxchg32" then Some (AnsB (b <- kcas a e d ;; Ret (negb b))) else None
  | _ => None
  end.

(** D/interlocked.hpp: the comparand comes last. *)
Definition interlocked (a : addr) (f : string) (vs : list val) : option answer :=
  match vs with
  | [VLoc; VI TStorage v] =>
      if String.eqb f "BOOST_ATOMIC_INTERLOCKED_EXCHANGE" then Some (AnsZ (xchg a v))
      else match assoc f [("BOOST_ATOMIC_INTERLOCKED_EXCHANGE_ADD", Add); ("BOOST_ATOMIC_INTERLOCKED_AND", And);
                          ("BOOST_ATOMIC_INTERLOCKED_OR", Or); ("BOOST_ATOMIC_INTERLOCKED_XOR", Xor)] with
           | Some b => Some (AnsZ (rmw a 32 (Bin b v)))
           | None => None
           end
  | [VLoc; VI TStorage d; VI TStorage e] =>
      if String.eqb f "BOOST_ATOMIC_INTERLOCKED_COMPARE_EXCHANGE"
      then Some (AnsZ ('(_, old) <- cas a e d ;; Ret old)) else None
  | _ => None
  end.

(** ** Layers from text *)

(** The preprocessor's conditions and the tag types, for a back end [k].  [rcpc]: the load of
    D/core_ops_gcc_atomic.hpp 84; [cx]: [cxchg_use_bitwise_cast]. *)
Definition old_gcc_text : string :=
  "defined(BOOST_GCC) && BOOST_GCC < 100100 && (defined(__x86_64__) || defined(__i386__))".
Definition rcpc_text : string :=
  "defined(BOOST_ATOMIC_DETAIL_AARCH64_HAS_RCPC) && !((defined(BOOST_GCC) && BOOST_GCC >= 130100) || (defined(BOOST_CLANG) && BOOST_CLANG_VERSION >= 160000))".
Definition conf (k : ckind) (rcpc cx : bool) (s : string) : bool :=
  if String.eqb s "cxchg_use_bitwise_cast" then cx
  else if String.eqb s rcpc_text then rcpc
  else match k with
       | KGccAtomic old => String.eqb s old_gcc_text && old
       | KGccSync plain => String.eqb s "plain_stores_loads_are_atomic" && plain
       | KWindows intr =>
           (String.eqb s "defined(BOOST_ATOMIC_INTERLOCKED_AND)" || String.eqb s "defined(BOOST_ATOMIC_INTERLOCKED_OR)" ||
            String.eqb s "defined(BOOST_ATOMIC_INTERLOCKED_XOR)") && intr
       | _ => false
       end.

(** An instance of an operations class: storage of [w] bits, emulated storage of [es] bits.  The rest
    plays no part there. *)
Definition ops_inst (w es : Z) (sg : bool) (cf : string -> bool) : inst := {|
  i_w := w; i_es := es; i_vw := w; i_sg := sg; i_ptr := w; i_sizeT := 1; i_vsize := 1;
  i_in := fun z => z; i_out := fun z => z; i_fin := fun z => z; i_fout := fun z => z;
  i_add := Z.add; i_sub := Z.sub; i_neg := Z.opp; i_conf := cf
|}.

Definition externals := addr -> string -> string -> list val -> option answer.
Section Calls.
  Variables (I : inst) (ext : externals) (cs : list stmt) (fns : list fn).
  Definition call_z (f : string) (vs : list val) (a : addr) : wprog Z :=
    call I a (ext a) cs fns 5 f vs None Z (fun v _ => match v with VI TStorage z => Ret z | _ => nonsense end).
  Definition call_v (f : string) (vs : list val) (a : addr) : wprog Z :=
    call I a (ext a) cs fns 5 f vs None Z (fun v _ => match v with VI TValue z => Ret z | _ => nonsense end).
  Definition call_u (f : string) (vs : list val) (a : addr) : wprog unit :=
    call I a (ext a) cs fns 5 f vs None unit (fun v _ => match v with VUnit => Ret tt | _ => nonsense end).
  Definition call_b (f : string) (vs : list val) (a : addr) : wprog bool :=
    call I a (ext a) cs fns 5 f vs None bool (fun v _ => match v with VB b => Ret b | _ => nonsense end).
  (** [bool] and the first parameter after the storage, which is by reference *)
  Definition call_c (f : string) (vs : list val) (a : addr) : wprog (bool * Z) :=
    call I a (ext a) cs fns 5 f vs None (bool * Z) (fun v outs =>
      match v, outs with VB b, VI TStorage z :: _ => Ret (b, z) | _, _ => nonsense end).
End Calls.

Notation W z := (VI TStorage z).

(** All core operations from one class. *)
Definition core_of_text (I : inst) (ext : externals) (fns : list fn) (full : bool) : family := fun s o => {|
  c_bits := i_w I; c_full_cas := full;
  c_load := fun mo a => call_z I ext [] fns "load" [VLoc; VO mo] a;
  c_store := fun mo a v => call_u I ext [] fns "store" [VLoc; W v; VO mo] a;
  c_exchange := fun a v => call_z I ext [] fns "exchange" [VLoc; W v; VO s] a;
  c_cas := fun a e d => call_c I ext [] fns "compare_exchange_strong" [VLoc; W e; W d; VO s; VO o] a;
  c_casw := fun a e d => call_c I ext [] fns "compare_exchange_weak" [VLoc; W e; W d; VO s; VO o] a;
  c_fetch := fun b a v => call_z I ext [] fns (fetch_name b) [VLoc; W v; VO s] a
|}.

Definition text_gcc_atomic (old rcpc be : bool) (w : Z) : family :=
  core_of_text (ops_inst w w false (conf (KGccAtomic old) rcpc true))
    (fun a => external (gcc_atomic_below a) (gcc_atomic_intrinsics w be a)) (cl_fns core_ops_gcc_atomic_54) false.

Definition text_gcc_sync (plain : bool) (w : Z) : family :=
  let I := ops_inst w w false (conf (KGccSync plain) false true) in
  core_of_text I (fun a => external none (gcc_sync_intrinsics I w a)) (cl_fns core_ops_gcc_sync_62) false.

Definition text_windows (intr : bool) : family :=
  core_of_text (ops_inst 32 32 false (conf (KWindows intr) false true))
    (fun a => external none (interlocked a)) (cl_fns core_ops_windows_106 ++ cl_fns core_ops_windows_62) false.

(** Layers on top of others: the members of the text replace those of the base class. *)
Definition over (C : family) (w es : Z) (sg : bool) : inst := ops_inst w es sg (conf KX86 false true).
Definition below (I : inst) (C : family) (a : addr) : string -> string -> list val -> option answer :=
  external (core_members I C a) none.

Definition text_exchange (C : family) : family := fun s o =>
  let c := C s o in
  let I := over C (c_bits c) (c_bits c) false in
  {| c_bits := c_bits c; c_full_cas := c_full_cas c;
     c_load := c_load c; c_store := c_store c;
     c_exchange := fun a v => call_z I (below I C) [] (cl_fns cas_based_exchange_30) "exchange" [VLoc; W v; VO s] a;
     c_cas := c_cas c; c_casw := c_casw c; c_fetch := c_fetch c |}.

Definition text_cas_based (C : family) : family := fun s o =>
  let c := C s o in
  let I := over C (c_bits c) (c_bits c) false in
  {| c_bits := c_bits c; c_full_cas := c_full_cas c;
     c_load := c_load c; c_store := c_store c; c_exchange := c_exchange c;
     c_cas := c_cas c; c_casw := c_casw c;
     c_fetch := fun b a v => call_z I (below I C) [] (cl_fns core_ops_cas_based_30) (fetch_name b) [VLoc; W v; VO s] a |}.

Definition text_extending (sg : bool) (vw : Z) (C : family) : family := fun s o =>
  let c := C s o in
  let I := over C (c_bits c) vw sg in
  {| c_bits := c_bits c; c_full_cas := c_full_cas c;
     c_load := c_load c; c_store := c_store c; c_exchange := c_exchange c;
     c_cas := c_cas c; c_casw := c_casw c;
     c_fetch := fun b a v =>
       match b with
       | Add | Sub => call_z I (below I C) [] (cl_fns extending_cas_based_arithmetic_33) (fetch_name b) [VLoc; W v; VO s] a
       | _ => c_fetch c b a v       (* inherited *)
       end |}.

(** D/core_ops_linux_arm.hpp 88-138, 140-143 *)
Definition text_linux_arm : family :=
  text_cas_based (text_exchange
    (core_of_text (ops_inst 32 32 false (conf KLinuxArm false true)) (fun a => external none (linux_arm_intrinsics a))
       (cl_fns core_ops_linux_arm_88) true)).

(** The parts of the other back ends that are in assembler or intrinsics of MSVC, as in CoreModel.v. *)
Definition sparc_base (w : Z) : core := {|
  c_bits := w; c_full_cas := true;
  c_load := fun _ a => (ld a);
  c_store := fun _ a v => (st a v);
  c_exchange := fun a v => (xchg a v);
  c_cas := sparc_cas;
  c_casw := sparc_cas;
  c_fetch := fun _ _ _ => Ret 0
|}.
Definition msvc_dcas_base (vec : bool) : core := {|
  c_bits := 128; c_full_cas := true;
  c_load := fun _ a => if vec then (ld a) else '(_, old) <- (cas a 0 0) ;; Ret old;
  c_store := fun o a v =>
    if vec && negb (is_seq_cst o) then (st a v)
    else i <- (racy a 128) ;; cas_loop (fun a e d => (cas a e d)) a (fun _ => v) i ;;; Ret tt;
  c_exchange := fun _ _ => Ret 0;
  c_cas := fun a e d => (cas a e d);
  c_casw := fun a e d => (cas a e d);
  c_fetch := fun _ _ _ => Ret 0
|}.

Definition text_base (k : ckind) (rcpc be : bool) (w : Z) : family :=
  match k with
  | KGccAtomic old => text_gcc_atomic old rcpc be w
  | KGccSync plain => text_gcc_sync plain w
  | KLinuxArm => text_linux_arm
  | KWindows intr => text_windows intr
  | KX86D vec => text_cas_based (fun _ _ => dcas_x86_base vec w)
  | KSparc =>
      if w =? 32 then text_cas_based (fun _ _ => sparc_base w)
      else text_cas_based (text_exchange (fun _ _ => sparc_base w))
  | KMsvcD vec => text_cas_based (text_exchange (fun _ _ => msvc_dcas_base vec))
  | _ => fun _ _ => base_core k w
  end.

(** What the compiler fixes: [t_rcpc] as above; [t_be] big-endian; [t_cx] [cxchg_use_bitwise_cast]. *)
Record target := Target { t_rcpc : bool; t_be : bool; t_cx : bool }.

Definition text_core (T : target) (o : obj) : family :=
  let C := text_base (o_core o) (t_rcpc T) (t_be T) (o_w o) in
  if o_vw o =? o_w o then C
  else match o_core o with
       | KLlsc => fun _ _ => llsc_narrow (o_sg o) (o_vw o) (o_w o)
       | _ => text_extending (o_sg o) (o_vw o) C
       end.

(** D/extra_ops_generic.hpp: which version is used depends on [full_cas_based]. *)
Definition text_extra_generic (sg : bool) (es : Z) (C : family) : xfamily := fun o =>
  let c := C o o in
  let I := over C (c_bits c) es sg in
  let fns := if c_full_cas c then cl_fns extra_ops_generic_200 else cl_fns extra_ops_generic_35 in
  let name {T} (l : list (string * T)) (is : T -> bool) : string :=
    match find (fun p => is (snd p)) l with Some (f, _) => f | None => "" end in
  let bin b b' := match b, b' with Add, Add | Sub, Sub | And, And | Or, Or | Xor, Xor => true | _, _ => false end in
  let un u u' := match u, u' with Neg, Neg | Not, Not => true | _, _ => false end in
  let bit k k' := match k, k' with BSet, BSet | BReset, BReset | BCompl, BCompl => true | _, _ => false end in
  {| x_fetch_un := fun u a => call_z I (below I C) [] fns (name fetch_un_names (un u)) [VLoc; VO o] a;
     x_bin := fun b a v => call_z I (below I C) [] fns (name bin_names (bin b)) [VLoc; W v; VO o] a;
     x_un := fun u a => call_z I (below I C) [] fns (name un_names (un u)) [VLoc; VO o] a;
     x_opaque_bin := fun b a v => call_u I (below I C) [] fns (name opaque_names (bin b)) [VLoc; W v; VO o] a;
     x_opaque_un := fun u a => call_u I (below I C) [] fns (name opaque_un_names (un u)) [VLoc; VO o] a;
     x_test_bin := fun b a v => call_b I (below I C) [] fns (name test_names (bin b)) [VLoc; W v; VO o] a;
     x_test_un := fun u a => call_b I (below I C) [] fns (name test_un_names (un u)) [VLoc; VO o] a;
     x_bit := fun k a i => call_b I (below I C) [] fns (name bit_names (bit k)) [VLoc; VI TUInt i; VO o] a |}.

(** The assembler versions of the extra operations, on top of the generic one [g] (ExtraModel.v, [extra_x86], [extra_llsc]). *)
Definition x86_over (g : extra) (w : Z) : extra :=
  {| x_fetch_un := fun u a => x86_xloop a (fun x => wrap w (un_apply u x));
     x_bin := fun b a v =>
       match b with
       | Add | Sub => x_bin g b a v
       | _ => x86_xloop_new a (fun x => wrap w (bin_apply b v x))
       end;
     x_un := fun u a => x86_xloop_new a (fun x => wrap w (un_apply u x));
     x_opaque_bin := fun b a v => rmw a w (Bin b v) ;;; Ret tt;
     x_opaque_un := fun u a => rmw a w (Un u) ;;; Ret tt;
     x_test_bin := fun b a v => old <- rmw a w (Bin b v) ;; Ret (negb (wrap w (bin_apply b old v) =? 0));
     x_test_un := fun u a => r <- x86_xloop_new a (fun x => wrap w (un_apply u x)) ;; Ret (negb (r =? 0));
     x_bit := if w =? 8 then x_bit g else fun k a i =>
       old <- rmw a w (match k with
                       | BSet => Bin Or (2 ^ i)
                       | BReset => Bin And (Z.lnot (2 ^ i))
                       | BCompl => Bin Xor (2 ^ i) end) ;;
       Ret (Z.testbit old i)
  |}.
Definition llsc_over (result_opaque lse : bool) (g : extra) (w : Z) : extra :=
  let fetch_un := fun u a =>
    match u with
    | Not => if lse then x_fetch_un g Not a else ll_loop a (fun x => wrap w (un_apply Not x))
    | Neg => ll_loop a (fun x => wrap w (un_apply Neg x))
    end in
  let un := fun u a =>
    match u with
    | Not => if lse then x_un g Not a else ll_loop_new a (fun x => wrap w (un_apply Not x))
    | Neg => ll_loop_new a (fun x => wrap w (un_apply Neg x))
    end in
  let bin := fun b a v => if lse then x_bin g b a v else ll_loop_new a (fun x => wrap w (bin_apply b x v)) in
  {| x_fetch_un := fetch_un; x_bin := bin; x_un := un;
     x_opaque_bin := fun b a v => if result_opaque then bin b a v ;;; Ret tt else x_opaque_bin g b a v;
     x_opaque_un := fun u a => if result_opaque then un u a ;;; Ret tt else fetch_un u a ;;; Ret tt;
     x_test_bin := fun b a v => r <- bin b a v ;; Ret (negb (r =? 0));
     x_test_un := fun u a => r <- un u a ;; Ret (negb (r =? 0));
     x_bit := x_bit g |}.

Definition text_extra (T : target) (ob : obj) : xfamily := fun o =>
  let C := text_core T ob in
  let w := c_bits (C o o) in
  let g := text_extra_generic (o_sg ob) w C o in
  match o_extra ob with
  | XGeneric => g
  | XX86 => x86_over g w
  | XLlsc ro lse => llsc_over ro lse g w
  end.

(** ** Members of atomic<>, atomic_ref<> and atomic_flag *)

(** What the user gets: [expected] after a compare_exchange is its first parameter.  [bools]: the value type is
    [bool], which is reported as a value, 0 or 1. *)
Definition outcome (bools : bool) (f : string) (v : val) (outs : list val) : wprog iret :=
  if String.eqb f "compare_exchange_strong" || String.eqb f "compare_exchange_weak" then
    match v, outs with
    | VB b, VI TValue e :: _ => Ret (RCas b e)
    | VB b, VB e :: _ => Ret (RCas b (Z.b2z e))
    | _, _ => nonsense
    end
  else match v with
       | VUnit => Ret RUnit
       | VI TValue z => Ret (RVal z)
       | VB b => Ret (if bools then RVal (Z.b2z b) else RBool b)
       | _ => nonsense
       end.

Definition call_member (bools : bool) (I : inst) (ext : externals) (fns : list fn) (c : mcall) (a : addr) : wprog iret :=
  call I a (ext a) [] fns 5 (fst c) (snd c) None iret (outcome bools (fst c)).

(** Core and extra operations by their names. *)
Definition ops_members (I : inst) (C : family) (X : xfamily) (a : addr) (q f : string) (vs : list val) : option answer :=
  if String.eqb q "core_operations" then core_members I C a f vs
  else if String.eqb q "extra_operations" then extra_members I X a f vs
  else None.

(** The first word of the storage, after the constructor has run. *)
Definition call_constructor (I : inst) (ext : externals) (fns : list fn) (vs : list val) (a : addr) : wprog Z :=
  call_z I ext [] fns "(constructor)" vs a.

Definition front_inst (w vw : Z) (sg : bool) (enc dec : Z -> Z) (cx : bool) : inst := {|
  i_w := w; i_es := w; i_vw := vw; i_sg := sg; i_ptr := vw; i_sizeT := 1; i_vsize := 1;
  i_in := enc; i_out := dec; i_fin := enc; i_fout := dec;
  i_add := Z.add; i_sub := Z.sub; i_neg := Z.opp; i_conf := conf KX86 false cx
|}.

(** atomic< integer >: D/atomic_impl.hpp 625-985.  The bits of an integer that fills the storage. *)
Definition int_inst (T : target) (ob : obj) : inst :=
  front_inst (o_w ob) (o_vw ob) (o_sg ob) (wrap (o_w ob)) (integral_truncate (o_sg ob) (o_w ob) (o_w ob)) (t_cx T).
Definition text_int (T : target) (ob : obj) (c : mcall) (a : addr) : wprog iret :=
  let I := int_inst T ob in
  call_member false I (ops_members I (text_core T ob) (text_extra T ob)) (cl_fns atomic_impl_625) c a.
(** atomic_ref< integer >: D/atomic_ref_impl.hpp 571-928 *)
Definition text_int_ref (T : target) (ob : obj) (c : mcall) (a : addr) : wprog iret :=
  let I := int_inst T ob in
  call_member false I (ops_members I (text_core T ob) (text_extra T ob)) (cl_fns atomic_ref_impl_571) c a.

(** atomic< enum >: D/atomic_impl.hpp 353-620; atomic_ref< enum >: D/atomic_ref_impl.hpp 303-567 *)
Definition enum_inst (T : target) (e : eobj) : inst :=
  front_inst (e_w e) (e_vw e) (e_sg e) (wrap (e_w e)) (enum_dec e) (t_cx T).
Definition text_enum (T : target) (e : eobj) (c : mcall) (a : addr) : wprog iret :=
  let I := enum_inst T e in
  call_member false I (ops_members I (text_core T (e_obj e)) (text_extra T (e_obj e))) (cl_fns atomic_impl_353) c a.
Definition text_enum_ref (T : target) (e : eobj) (c : mcall) (a : addr) : wprog iret :=
  let I := enum_inst T e in
  call_member false I (ops_members I (text_core T (e_obj e)) (text_extra T (e_obj e))) (cl_fns atomic_ref_impl_303) c a.

(** atomic< bool >: D/atomic_impl.hpp 988-1142; atomic_ref< bool >: D/atomic_ref_impl.hpp 932-1085 *)
Definition bool_inst (T : target) (ob : obj) : inst :=
  front_inst (o_w ob) (o_vw ob) false (wrap (o_w ob)) (fun z => z) (t_cx T).
Definition text_bool (T : target) (ob : obj) (c : mcall) (a : addr) : wprog iret :=
  let I := bool_inst T ob in
  call_member true I (ops_members I (text_core T ob) (text_extra T ob)) (cl_fns atomic_impl_988) c a.
Definition text_bool_ref (T : target) (ob : obj) (c : mcall) (a : addr) : wprog iret :=
  let I := bool_inst T ob in
  call_member true I (ops_members I (text_core T ob) (text_extra T ob)) (cl_fns atomic_ref_impl_932) c a.

(** atomic< T* >: D/atomic_impl.hpp 1372-1614; atomic_ref< T* >: D/atomic_ref_impl.hpp 1327-1560 *)
Definition ptr_inst (T : target) (p : pobj) : inst :=
  let w := o_w (p_obj p) in
  {| i_w := w; i_es := w; i_vw := p_bits p; i_sg := false; i_ptr := p_bits p; i_sizeT := p_sz p; i_vsize := 1;
     i_in := wrap w; i_out := wrap (p_bits p); i_fin := fun z => z; i_fout := fun z => z;
     i_add := Z.add; i_sub := Z.sub; i_neg := Z.opp; i_conf := conf KX86 false (t_cx T) |}.
Definition text_ptr (T : target) (p : pobj) (c : mcall) (a : addr) : wprog iret :=
  let I := ptr_inst T p in
  call_member false I (ops_members I (text_core T (p_obj p)) (text_extra T (p_obj p))) (cl_fns atomic_impl_1372) c a.
Definition text_ptr_ref (T : target) (p : pobj) (c : mcall) (a : addr) : wprog iret :=
  let I := ptr_inst T p in
  call_member false I (ops_members I (text_core T (p_obj p)) (text_extra T (p_obj p))) (cl_fns atomic_ref_impl_1327) c a.

(** atomic< T > for other types: D/atomic_impl.hpp 190-348; atomic_ref< T >: D/atomic_ref_impl.hpp 147-298 *)
Definition gen_inst (T : target) (g : gobj) : inst :=
  front_inst (g_w g) (g_vw g) false (gen_enc g) (gen_dec g) (t_cx T).
Definition text_gen (T : target) (g : gobj) (c : mcall) (a : addr) : wprog iret :=
  let I := gen_inst T g in
  call_member false I (ops_members I (text_core T (g_obj g)) (text_extra T (g_obj g))) (cl_fns atomic_impl_190) c a.
Definition text_gen_ref (T : target) (g : gobj) (c : mcall) (a : addr) : wprog iret :=
  let I := gen_inst T g in
  call_member false I (ops_members I (text_core T (g_obj g)) (text_extra T (g_obj g))) (cl_fns atomic_ref_impl_147) c a.

(** atomic< floating point >: D/atomic_impl.hpp 1147-1367; atomic_ref: D/atomic_ref_impl.hpp 1089-1322.
    [value_size_of] is the size of the value bits in bytes. *)
Definition fp_inst (T : target) (f : fobj) : inst := {|
  i_w := f_w f; i_es := f_w f; i_vw := f_vw f; i_sg := false; i_ptr := f_w f; i_sizeT := 1; i_vsize := f_vw f / 8;
  i_in := fp_enc f; i_out := fp_dec f; i_fin := fp_enc f; i_fout := fp_dec f;
  i_add := fun x y => fp_op f (FAdd y) x; i_sub := fun x y => fp_op f (FSub y) x; i_neg := fp_op f FNeg;
  i_conf := conf KX86 false (t_cx T)
|}.
(** Members of the operations for floating point: [V] by name, of a value or of none, with the order. *)
Record fpops := Fpops {
  v_fetch_add : morder -> addr -> Z -> wprog Z; v_fetch_sub : morder -> addr -> Z -> wprog Z;
  v_fetch_negate : morder -> addr -> wprog Z; v_negate : morder -> addr -> wprog Z;
  v_opaque_negate : morder -> addr -> wprog unit;
  v_add : morder -> addr -> Z -> wprog Z; v_sub : morder -> addr -> Z -> wprog Z;
  v_opaque_add : morder -> addr -> Z -> wprog unit; v_opaque_sub : morder -> addr -> Z -> wprog unit
}.
Definition fp_members (V : fpops) (a : addr) (f : string) (vs : list val) : option answer :=
  match vs with
  | [VLoc; VI TValue v; VO o] =>
      if String.eqb f "fetch_add" then Some (AnsV (v_fetch_add V o a v))
      else if String.eqb f "fetch_sub" then Some (AnsV (v_fetch_sub V o a v))
      else if String.eqb f "add" then Some (AnsV (v_add V o a v))
      else if String.eqb f "sub" then Some (AnsV (v_sub V o a v))
      else if String.eqb f "opaque_add" then Some (AnsU (v_opaque_add V o a v))
      else if String.eqb f "opaque_sub" then Some (AnsU (v_opaque_sub V o a v))
      else None
  | [VLoc; VO o] =>
      if String.eqb f "fetch_negate" then Some (AnsV (v_fetch_negate V o a))
      else if String.eqb f "negate" then Some (AnsV (v_negate V o a))
      else if String.eqb f "opaque_negate" then Some (AnsU (v_opaque_negate V o a))
      else None
  | _ => None
  end.
(** D/fp_ops_generic.hpp, D/extra_fp_ops_generic.hpp *)
Definition text_fpops (T : target) (f : fobj) : fpops :=
  let I := fp_inst T f in
  let C := text_core T (f_obj f) in
  let X := text_extra T (f_obj f) in
  let on_core := fun a => external (core_members I C a) none in
  let on_both := fun a => external (either (core_members I C a) (extra_members I X a)) none in
  let neg := if f_iec f then extra_fp_ops_generic_97 else extra_fp_ops_generic_50 in
  let fetch name o a v := call_v I on_core [] (cl_fns fp_ops_generic_35) name [VLoc; VI TValue v; VO o] a in
  let fetches := fun (a : addr) (g : string) (vs : list val) =>
    match vs with
    | [VLoc; VI TValue v; VO o] =>
        if String.eqb g "fetch_add" || String.eqb g "fetch_sub" then Some (AnsV (fetch g o a v)) else None
    | _ => None
    end in
  let on_fp := fun a => external (either (fetches a) (core_members I C a)) none in
  {| v_fetch_add := fetch "fetch_add";
     v_fetch_sub := fetch "fetch_sub";
     v_fetch_negate := fun o a => call_v I on_both (cl_consts neg) (cl_fns neg) "fetch_negate" [VLoc; VO o] a;
     v_negate := fun o a => call_v I on_both (cl_consts neg) (cl_fns neg) "negate" [VLoc; VO o] a;
     v_opaque_negate := fun o a => call_u I on_both (cl_consts neg) (cl_fns neg) "opaque_negate" [VLoc; VO o] a;
     v_add := fun o a v => call_v I on_fp [] (cl_fns extra_fp_ops_generic_127) "add" [VLoc; VI TValue v; VO o] a;
     v_sub := fun o a v => call_v I on_fp [] (cl_fns extra_fp_ops_generic_127) "sub" [VLoc; VI TValue v; VO o] a;
     v_opaque_add := fun o a v => call_u I on_fp [] (cl_fns extra_fp_ops_generic_127) "opaque_add" [VLoc; VI TValue v; VO o] a;
     v_opaque_sub := fun o a v => call_u I on_fp [] (cl_fns extra_fp_ops_generic_127) "opaque_sub" [VLoc; VI TValue v; VO o] a |}.
Definition fp_external (T : target) (f : fobj) (a : addr) (q g : string) (vs : list val) : option answer :=
  if String.eqb q "core_operations" then core_members (fp_inst T f) (text_core T (f_obj f)) a g vs
  else if String.eqb q "fp_operations" || String.eqb q "extra_fp_operations" then fp_members (text_fpops T f) a g vs
  else None.
Definition text_fp (T : target) (f : fobj) (c : mcall) (a : addr) : wprog iret :=
  call_member false (fp_inst T f) (fp_external T f) (cl_fns atomic_impl_1147) c a.
Definition text_fp_ref (T : target) (f : fobj) (c : mcall) (a : addr) : wprog iret :=
  call_member false (fp_inst T f) (fp_external T f) (cl_fns atomic_ref_impl_1089) c a.

(** atomic_flag: D/atomic_flag_impl.hpp 48-139.  [test_and_set] and [clear] of the back ends in the table; the
    others have [!!exchange(storage, 1)] and [store(storage, 0)] in assembler. *)
Definition flag_members (T : target) (ob : obj) (a : addr) (f : string) (vs : list val) : option answer :=
  let w := o_w ob in
  let C := text_core T ob in
  let k := o_core ob in
  let cas_based_text :=
    let I := over C w w false in
    fun r : (inst -> externals -> list stmt -> list fn -> option answer) => r I (below I C) [] (cl_fns core_ops_cas_based_30) in
  let with_text (r : inst -> externals -> list stmt -> list fn -> option answer) (direct : option answer) : option answer :=
    match k with
    | KGccAtomic old =>
        r (ops_inst w w false (conf k (t_rcpc T) true))
          (fun a => external (gcc_atomic_below a) (gcc_atomic_intrinsics w (t_be T) a)) [] (cl_fns core_ops_gcc_atomic_54)
    | KGccSync plain =>
        let I := ops_inst w w false (conf k false true) in
        r I (fun a => external none (gcc_sync_intrinsics I w a)) [] (cl_fns core_ops_gcc_sync_62)
    | KWindows intr =>
        r (ops_inst 32 32 false (conf k false true)) (fun a => external none (interlocked a)) []
          (cl_fns core_ops_windows_106 ++ cl_fns core_ops_windows_62)
    | KLinuxArm | KSparc | KX86D _ | KMsvcD _ => cas_based_text r
    | _ => direct
    end in
  match vs with
  | [VLoc; VO o] =>
      if String.eqb f "load" then Some (AnsZ (c_load (C o o) o a))
      else if String.eqb f "test_and_set" then
        with_text (fun I ext cs fns => Some (AnsB (call_b I ext cs fns "test_and_set" [VLoc; VO o] a)))
          (Some (AnsB (r <- c_exchange (C o o) a 1 ;; Ret (negb (r =? 0)))))
      else if String.eqb f "clear" then
        with_text (fun I ext cs fns => Some (AnsU (call_u I ext cs fns "clear" [VLoc; VO o] a)))
          (Some (AnsU (c_store (C o o) o a 0)))
      else None
  | _ => None
  end.
Definition flag_external (T : target) (ob : obj) (a : addr) (q g : string) (vs : list val) : option answer :=
  if String.eqb q "core_operations" then flag_members T ob a g vs else None.
Definition text_flag (T : target) (ob : obj) (c : mcall) (a : addr) : wprog iret :=
  call_member false (front_inst (o_w ob) (o_w ob) false (wrap (o_w ob)) (wrap (o_w ob)) (t_cx T)) (flag_external T ob)
    (cl_fns atomic_flag_impl_48) c a.

(** ** The first word of the storage, by the constructors *)
Definition first_word (p : wprog Z) : Z := match p with Ret z => z | _ => -1 end.
Definition no_ext : externals := fun _ _ _ _ => None.
Definition text_int_word (T : target) (ob : obj) (v : Z) : Z :=          (* D/atomic_impl.hpp 655 *)
  first_word (call_constructor (int_inst T ob) no_ext (cl_fns atomic_impl_625) [VI TValue v] 0%nat).
Definition text_enum_word (T : target) (e : eobj) (v : Z) : Z :=         (* 382 *)
  first_word (call_constructor (enum_inst T e) no_ext (cl_fns atomic_impl_353) [VI TValue v] 0%nat).
Definition text_bool_word (T : target) (ob : obj) (b : bool) : Z :=      (* 1016 *)
  first_word (call_constructor (bool_inst T ob) no_ext (cl_fns atomic_impl_988) [VB b] 0%nat).
Definition text_ptr_word (T : target) (p : pobj) (v : Z) : Z :=          (* 1406 *)
  first_word (call_constructor (ptr_inst T p) no_ext (cl_fns atomic_impl_1372) [VI TValue v] 0%nat).
Definition text_fp_word (T : target) (f : fobj) (v : Z) : Z :=           (* 1180 *)
  first_word (call_constructor (fp_inst T f) no_ext (cl_fns atomic_impl_1147) [VI TValue v] 0%nat).
(** 221, on one of the two versions of base_atomic_generic, 157 and 178 *)
Definition text_gen_word (T : target) (trivial : bool) (g : gobj) (v : Z) : Z :=
  let base : externals := fun a q f vs =>
    if String.eqb q "base_type" && String.eqb f "(constructor)"
    then Some (AnsZ (call_constructor (gen_inst T g) no_ext (cl_fns (if trivial then atomic_impl_164 else atomic_impl_145)) vs a))
    else None in
  first_word (call_constructor (gen_inst T g) base (cl_fns atomic_impl_190) [VI TValue v] 0%nat).
Definition text_flag_word (T : target) (ob : obj) : Z :=                 (* D/atomic_flag_impl.hpp 60 *)
  first_word (call_constructor (front_inst (o_w ob) (o_w ob) false (wrap (o_w ob)) (wrap (o_w ob)) (t_cx T)) no_ext
    (cl_fns atomic_flag_impl_48) [] 0%nat).

(** ** Runs: any number of threads calling members of any number of objects *)
Definition tcall := (addr * mcall)%type.
Definition text_run {B} (text : B -> mcall -> addr -> wprog iret) (word : addr -> Z) (W : addr -> B) (n0 : addr -> Z)
    (l : list (sched luck tcall)) :=
  run wexec (fun c : tcall => text (W (fst c)) (snd c) (fst c)) (start (fun a => mkcell (word a) (n0 a))) l.
Definition text_int_run (T : target) (W : world) (v0 n0 : addr -> Z) :=
  text_run (text_int T) (fun a => text_int_word T (W a) (v0 a)) W n0.
(** a reference to an object of the value [v0] *)
Definition text_int_ref_run (T : target) (W : world) (v0 n0 : addr -> Z) :=
  text_run (text_int_ref T) (fun a => wrap (o_w (W a)) (v0 a)) W n0.
Definition text_enum_run (T : target) (W : addr -> eobj) (v0 n0 : addr -> Z) :=
  text_run (text_enum T) (fun a => text_enum_word T (W a) (v0 a)) W n0.
Definition text_enum_ref_run (T : target) (W : addr -> eobj) (v0 n0 : addr -> Z) :=
  text_run (text_enum_ref T) (fun a => wrap (e_w (W a)) (v0 a)) W n0.
Definition text_bool_run (T : target) (W : world) (v0 : addr -> bool) (n0 : addr -> Z) :=
  text_run (text_bool T) (fun a => text_bool_word T (W a) (v0 a)) W n0.
Definition text_bool_ref_run (T : target) (W : world) (v0 : addr -> bool) (n0 : addr -> Z) :=
  text_run (text_bool_ref T) (fun a => wrap (o_w (W a)) (Z.b2z (v0 a))) W n0.
Definition text_ptr_run (T : target) (W : addr -> pobj) (v0 n0 : addr -> Z) :=
  text_run (text_ptr T) (fun a => text_ptr_word T (W a) (v0 a)) W n0.
Definition text_ptr_ref_run (T : target) (W : addr -> pobj) (v0 n0 : addr -> Z) :=
  text_run (text_ptr_ref T) (fun a => wrap (o_w (p_obj (W a))) (v0 a)) W n0.
Definition text_gen_run (T : target) (trivial : addr -> bool) (W : addr -> gobj) (v0 n0 : addr -> Z) :=
  text_run (text_gen T) (fun a => text_gen_word T (trivial a) (W a) (v0 a)) W n0.
Definition text_gen_ref_run (T : target) (W : addr -> gobj) (v0 n0 : addr -> Z) :=
  text_run (text_gen_ref T) (fun a => gen_enc (W a) (v0 a)) W n0.
Definition text_fp_run (T : target) (W : addr -> fobj) (v0 n0 : addr -> Z) :=
  text_run (text_fp T) (fun a => text_fp_word T (W a) (v0 a)) W n0.
Definition text_fp_ref_run (T : target) (W : addr -> fobj) (v0 n0 : addr -> Z) :=
  text_run (text_fp_ref T) (fun a => fp_enc (W a) (v0 a)) W n0.
Definition text_flag_run (T : target) (W : world) (n0 : addr -> Z) :=
  text_run (text_flag T) (fun a => text_flag_word T (W a)) W n0.

(** The calls that mean something. *)
Definition real_impl {B O} (means : mcall -> option O) (text : B -> mcall -> addr -> wprog iret) (W : addr -> B) (c : real means) : wprog iret :=
  text (W (fst (proj1_sig c))) (snd (proj1_sig c)) (fst (proj1_sig c)).
