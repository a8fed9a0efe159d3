(** * Memory ordering in the text of assembler blocks.

    The accesses to the object and the barriers that the lines of a block contain, in the terms of Reorder.v, and the
    conditions on the memory order under which the library executes a block.  [D] abbreviates
    include/boost/atomic/detail. *)
From Coq Require Import ZArith Arith List Bool String Ascii.
From Verif Require Import Order AsmText AsmModel SpecAsm AsmBlocks.
From Verif Require Reorder FenceModel SpecOrder.
Import ListNotations.
Open Scope string_scope.
Open Scope Z_scope.
Open Scope list_scope.

Notation item := Reorder.item.
Notation full := FenceModel.full.

(** ** Instructions *)

Definition sized (n : string) : list string := map (fun s => (n ++ s)%string) [""; "b"; "h"; "d"].
Definition lse_forms (letters : list string) : list string :=
  flat_map (fun n => flat_map (fun m => sized (n ++ m)%string) letters) ["swp"; "cas"; "ldadd"; "ldclr"; "ldset"; "ldeor"].
(** Arm ARM, B2.3.11, C3.2.6-C3.2.12, F2.: the reads that later accesses wait for *)
Definition acquires (ar : arch) (op : string) : bool :=
  match ar with
  | AArch64 => mem op ("ldaxp" :: flat_map sized ["ldar"; "ldaxr"; "ldapr"] ++ lse_forms ["a"; "al"])
  | AArch32 => mem op (flat_map sized ["lda"; "ldaex"])
  | _ => false
  end.
(** the writes that wait for all earlier accesses *)
Definition releases (ar : arch) (op : string) : bool :=
  match ar with
  | AArch64 => mem op ("stlxp" :: flat_map sized ["stlr"; "stlxr"] ++ lse_forms ["l"; "al"])
  | AArch32 => mem op (flat_map sized ["stl"; "stlex"])
  | _ => false
  end.
(** an acquiring read that may pass an earlier release *)
Definition passes (op : string) : bool := mem op (sized "ldapr").

(** barriers.  SPARC V9 A.32: membar lists what it keeps; Power ISA Book II 4.4; Arm ARM C6.2, A8.8.43 (encodings of
    "dmb ish" in both instruction sets), B4.2.5 (the co-processor operation); Alpha handbook 4.11.4. *)
Definition barrier (ar : arch) (op : string) (args : list string) : option item :=
  match ar with
  | Alpha => if String.eqb op "mb" then Some full else None
  | PowerPC => find op [("sync", full); ("lwsync", FenceModel.lwsync); ("isync", Reorder.Isync)]
  | Arm =>
      let text := String.concat " " (op :: args) in
      if mem text [".word 0xF57FF05B"; ".short 0xF3BF 0x8F5B"; "mcr p15 0 r0 c7 c10 5"] then Some full else None
  | AArch32 | AArch64 =>
      if String.eqb op "dmb" then find (String.concat " " args) [("ish", full); ("ishld", FenceModel.dmb_ishld)] else None
  | Sparc =>
      if String.eqb op "membar" then
        if mem "#Sync" args then Some full
        else Some (Reorder.Barrier (mem "#LoadLoad" args) (mem "#LoadStore" args) (mem "#StoreLoad" args) (mem "#StoreStore" args))
      else None
  | X86 => None
  end.

(** ** Lines *)

Definition reads_it (u : uop) : bool :=
  match u with ULd _ | UHf _ _ | UXc _ _ | URm _ _ _ | URu _ _ | UCs _ _ _ | ULk _ | ULkH _ _ => true | _ => false end.
Definition writes_it (u : uop) : bool :=
  match u with USt _ _ | UXc _ _ | URm _ _ _ | URu _ _ | UCs _ _ _ | USc _ _ => true | _ => false end.
Definition branches (l : line) : bool := mem (l_op l) ["bne-"].

(** A barrier works only if the compiler, too, moves nothing across the statement.  An x86 instruction that is locked, or
    an exchange with memory, is also a full barrier (Intel SDM vol. 3, 8.1.2 and 8.2.2); so is one on the local variable
    [dummy] of the fence function, the accesses to which are left out.  A branch after a read matters to isync only. *)
Definition line_items (b : block) (l : line) (rest : list line) (at_ : nat) : option (list item) :=
  let clob := mem "memory" (b_clob b) in
  match barrier (b_arch b) (l_op l) (l_args l) with
  | Some x => Some (if clob then [x] else [])
  | None =>
      if l_lock l && existsb (fun o => String.eqb (o_expr o) "dummy" && String.eqb (o_con o) "+m") (operands b)
      then Some (if clob then [full] else [])
      else match line_code b l with
      | Some c =>
          let rd := existsb reads_it c in let wt := existsb writes_it c in
          let acq := acquires (b_arch b) (l_op l) in let rel := releases (b_arch b) (l_op l) in
          let br := match b_arch b with PowerPC => existsb branches rest | _ => false end in
          let both := (if rd then [Reorder.Access (Reorder.Acc Reorder.Rd at_ clob true acq false (acq && negb (passes (l_op l))) br)] else [])
                   ++ (if wt then [Reorder.Access (Reorder.Acc Reorder.Wr at_ clob true false rel rel false)] else []) in
          match b_arch b with
          | X86 => Some (if rd && wt && clob then [full] ++ both ++ [full] else both)
          | _ => Some both
          end
      | None => None
      end
  end.
Fixpoint items_of (b : block) (ls : list line) (at_ : nat) : option (list item) :=
  match ls with
  | [] => Some []
  | l :: rest => match line_items b l rest at_, items_of b rest at_ with Some x, Some y => Some (x ++ y) | _, _ => None end
  end.

(** ** Blocks: what comes before the loop, if the block has one, and a pass through the rest in which the store takes place *)

Definition jumps_back (l : line) : bool := existsb (fun a => mem a ["1b"] || match a with String "$" (String "-" _) => true | _ => false end) (l_args l).
Definition loops (b : block) : bool := existsb jumps_back (lines b).
Fixpoint split_label (ls : list line) : list line * list line :=
  match ls with
  | [] => ([], [])
  | l :: rest => match l_label l with Some 1%nat => ([], ls) | _ => let (x, y) := split_label rest in (l :: x, y) end
  end.
Definition split (b : block) : list line * list line :=
  if loops b && existsb (fun l => match l_label l with Some 1%nat => true | _ => false end) (lines b)
  then split_label (lines b) else ([], lines b).
Definition items (b : block) (at_ : nat) : option (list item * list item) :=
  match items_of b (fst (split b)) at_, items_of b (snd (split b)) at_ with
  | Some x, Some [] => Some (x, match b_text b with [] => if mem "memory" (b_clob b) then [Reorder.Clobber] else [] | _ => [] end)
  | Some x, Some y => Some (x, y)
  | _, _ => None
  end.
(** in a pass that stores nothing the writes are missing *)
Definition is_write (x : item) : bool := match x with Reorder.Access a => match Reorder.a_kind a with Reorder.Wr => true | _ => false end | _ => false end.
Definition unstored (c : list item) : list item := filter (fun x => negb (is_write x)) c.

(** ** When a block is executed *)

(** what is known when the library is compiled, and for X86 whether the object is aligned to its size *)
Record config := Config { c_ppc64 : bool; c_rcpc : bool; c_aligned : bool }.

Notation rel := FenceModel.with_release.
Notation acq := FenceModel.with_acquire.
Definition relaxed (o : morder) : bool := match o with Relaxed => true | _ => false end.
Definition only_acquire (o : morder) : bool := match o with Consume | Acquire => true | _ => false end.

(** the conditions of the "if"s and "#if"s around the statements, by file and line; for x86 the calls of [is_aligned] *)
Definition conditions : list (string * list (Z * (config -> morder -> bool))) :=
  [("core_arch_ops_gcc_alpha.hpp",
     [(73, fun _ => rel); (79, fun _ => acq); (85, fun _ => is_seq_cst)]);
   ("ops_gcc_ppc_common.hpp",
     [(51, fun c o => c_ppc64 c && is_seq_cst o); (53, fun c o => c_ppc64 c && negb (is_seq_cst o) && rel o);
      (56, fun c o => negb (c_ppc64 c) && rel o); (63, fun _ => acq)]);
   ("core_arch_ops_gcc_ppc.hpp",
     flat_map (fun z => [(z, fun _ => is_seq_cst); (z + 3, fun _ => acq); (z + 17, fun _ o => negb (acq o))]) [111; 371; 739; 1107]);
   ("core_arch_ops_gcc_aarch32.hpp",
     [(68, fun _ => rel); (350, fun _ => rel); (632, fun _ => rel); (87, fun _ => acq); (369, fun _ => acq); (651, fun _ => acq);
      (931, fun _ => rel); (945, fun _ o => negb (rel o)); (964, fun _ => acq); (973, fun _ o => negb (acq o))]);
   ("core_arch_ops_gcc_aarch64.hpp",
     flat_map (fun z => [(z, fun _ => rel); (z + 22, fun c o => c_rcpc c && only_acquire o);
                         (z + 33, fun c o => acq o && negb (c_rcpc c && only_acquire o))]) [64; 470; 876; 1280] ++
     [(1710, fun _ => rel); (1723, fun _ o => negb (rel o)); (1742, fun _ => acq); (1755, fun _ o => negb (acq o))]);
   ("core_arch_ops_gcc_sparc.hpp",
     [(45, fun _ => is_seq_cst); (47, fun _ o => negb (is_seq_cst o) && rel o);
      (53, fun _ => is_seq_cst); (55, fun _ o => negb (is_seq_cst o) && acq o); (61, fun _ => is_seq_cst)]);
   ("core_arch_ops_gcc_x86.hpp",
     [(49, fun _ => rel); (55, fun _ => acq)] ++
     map (fun z => (z, fun c o => negb (is_seq_cst o) && c_aligned c)) [483; 497; 953] ++
     map (fun z => (z, fun c o => negb (negb (is_seq_cst o) && c_aligned c))) [510; 525; 965] ++
     map (fun z => (z, fun c _ => c_aligned c)) [548; 569; 986] ++
     map (fun z => (z, fun c _ => negb (c_aligned c))) [590; 605; 1017; 1037]);
   ("fence_arch_ops_gcc_alpha.hpp", [(35, fun _ o => negb (relaxed o)); (41, fun _ o => negb (relaxed o))]);
   ("fence_arch_ops_gcc_arm.hpp", [(44, fun _ o => negb (relaxed o))]);
   ("fence_arch_ops_gcc_ppc.hpp",
     [(38, fun c o => negb (relaxed o) && c_ppc64 c && negb (is_seq_cst o)); (40, fun c o => negb (relaxed o) && c_ppc64 c && is_seq_cst o);
      (42, fun c o => negb (relaxed o) && negb (c_ppc64 c)); (54, fun _ o => negb (relaxed o))]);
   ("fence_arch_ops_gcc_sparc.hpp",
     [(37, fun _ o => match o with Release => true | _ => false end); (41, fun _ => only_acquire);
      (44, fun _ o => match o with AcqRel => true | _ => false end); (47, fun _ => is_seq_cst); (58, fun _ o => negb (relaxed o))]);
   ("fence_arch_ops_gcc_x86.hpp",
     [(46, fun _ => is_seq_cst); (50, fun _ o => negb (is_seq_cst o) && FenceModel.has o (Z.lor (code Acquire) (code Release)));
      (57, fun _ o => negb (relaxed o))]);
   ("fence_arch_ops_gcc_aarch32.hpp",
     [(38, fun _ => only_acquire); (40, fun _ o => negb (relaxed o) && negb (only_acquire o)); (47, fun _ o => negb (relaxed o))]);
   ("fence_arch_ops_gcc_aarch64.hpp",
     [(37, fun _ => only_acquire); (39, fun _ o => negb (relaxed o) && negb (only_acquire o)); (46, fun _ o => negb (relaxed o))])].
Fixpoint at_line {A} (z : Z) (l : list (Z * A)) : option A :=
  match l with [] => None | (y, v) :: l => if z =? y then Some v else at_line z l end.
(** D/ops_gcc_aarch{32,64}_common.hpp 24-44: the copies of a statement for the memory orders.  Other statements without an
    entry above are executed whatever the order is. *)
Definition executed (c : config) (b : block) (o : morder) : bool :=
  match b_mo b with
  | Some (x, y) => let (x', y') := FenceModel.mo_switch o in Bool.eqb x x' && Bool.eqb y y'
  | None =>
      match find (b_file b) conditions with
      | Some l => match at_line (b_line b) l with Some f => f c o | None => true end
      | None => true
      end
  end.

(** ** Functions *)

Definition arch_eqb (x y : arch) : bool :=
  match x, y with
  | Alpha, Alpha | PowerPC, PowerPC | Arm, Arm | AArch32, AArch32 | AArch64, AArch64 | Sparc, Sparc | X86, X86 => true
  | _, _ => false
  end.
Definition block_items (b : block) : list item := match items b 0 with Some (x, y) => x ++ y | None => [] end.
(** the fences in function [f], for objects of [w] bits; 0: for all *)
Definition fence_in (ar : arch) (f : string) (w : Z) (b : block) : bool :=
  arch_eqb (b_arch b) ar && (b_bits b =? w) && String.eqb (b_func b) f && match kind_of b with Some KFence | None => true | _ => false end.
Definition fence_text (c : config) (ar : arch) (f : string) (w : Z) (o : morder) : list item :=
  flat_map (fun b => if fence_in ar f w b && executed c b o then block_items b else []) (blocks ++ fences).
(** D/fence_arch_ops_gcc_arm.hpp 47-85: the possible texts of [hardware_full_fence] *)
Definition arm_fence (f : block) : Prop := In f fences /\ b_arch f = Arm /\ b_func f = "hardware_full_fence".

(** one instruction on x86, where other operations are loops around compare-and-swap *)
Definition single (k : kind) : bool :=
  match k with KFetch (Bin_ SpecInt.Add) | KFetch (Bin_ SpecInt.Sub) | KOpaque _ | KTest _ | KBit _ => true | _ => false end.
(** What the functions execute before and after the statement, when called with order [o].  Alpha, PowerPC, ARM, SPARC:
    [fence_before] and [fence_after] (D/core_arch_ops_gcc_alpha.hpp 115-337, _ppc.hpp 95-330, _arm.hpp 84-309, 1138-1410,
    _sparc.hpp 90-129, extra_ops_gcc_{arm,ppc}.hpp), where those of ARM call [hardware_full_fence]
    (D/ops_gcc_arm_common.hpp 38-54); for a load on PowerPC the statements in [load] itself.  x86: a loop is preceded by a
    read of the storage (D/core_arch_ops_gcc_x86.hpp 158-190, D/extra_ops_gcc_x86.hpp 70-180). *)
Definition before (c : config) (f b : block) (k : kind) (o : morder) (at_ : nat) : list item :=
  match k, b_arch b with
  | KLoad, ar => fence_text c ar "load" (b_bits b) o
  | _, Arm => if rel o then block_items f else []
  | (KFetch _ | KNew _), X86 => if single k then [] else [FenceModel.ld at_]
  | _, X86 => []
  | _, ar => fence_text c ar "fence_before" 0 o
  end.
Definition after (c : config) (f b : block) (k : kind) (o : morder) : list item :=
  match k, b_arch b with
  | KStore, _ => []
  | _, Arm => if acq o then block_items f else []
  | KLoad, _ | _, X86 => []
  | _, ar => fence_text c ar "fence_after" 0 o
  end.

(** the back end of FenceModel.v that the block belongs to, and the operation *)
Definition backend_of (c : config) (b : block) : FenceModel.backend :=
  match b_arch b with
  | Alpha => FenceModel.Alpha
  | PowerPC => FenceModel.Ppc (c_ppc64 c)
  | Arm => if b_bits b =? 64 then FenceModel.ArmWide else FenceModel.Arm
  | AArch32 => if b_bits b =? 64 then FenceModel.Aarch32Wide else FenceModel.Aarch32
  | AArch64 => if b_bits b =? 128 then FenceModel.Aarch64Wide else FenceModel.Aarch64 (c_rcpc c)
  | Sparc => FenceModel.Sparc
  | X86 => if (b_bits b =? 128) || ((b_bits b =? 64) && String.eqb (b_file b) "core_arch_ops_gcc_x86.hpp" && (b_line b <? 806))
           then FenceModel.X86Wide (c_aligned c) else FenceModel.X86
  end.
Definition fence_backend (c : config) (ar : arch) : FenceModel.backend :=
  match ar with
  | Alpha => FenceModel.Alpha | PowerPC => FenceModel.Ppc (c_ppc64 c) | Arm => FenceModel.Arm | AArch32 => FenceModel.Aarch32
  | AArch64 => FenceModel.Aarch64 (c_rcpc c) | Sparc => FenceModel.Sparc | X86 => FenceModel.X86
  end.
Definition op_of (k : kind) (ok : bool) (n : nat) (so fo : morder) : FenceModel.op :=
  match k with
  | KLoad => FenceModel.OLoad n so
  | KStore => FenceModel.OStore n so
  | KExchange => FenceModel.OExchange n so
  | KWeak | KStrong => FenceModel.OCas ok n so fo
  | k => FenceModel.OFetch (single k) n so
  end.
Definition may_fail (k : kind) : bool := match k with KWeak | KStrong => true | _ => false end.

(** the instructions of an execution: [n] passes in which nothing is stored, then one in which the store takes place if [ok] *)
Definition text_code (c : config) (f b : block) (k : kind) (l : nat) (ok : bool) (n : nat) (so fo : morder) : option (list item) :=
  match items b l with
  | Some (x, y) =>
      Some (before c f b k so l ++ x ++ FenceModel.repeat_code n (unstored y) ++ (if ok then y else unstored y) ++ after c f b k (if ok then so else fo))
  | None => None
  end.
(** [b] implements an operation of kind [k], and when it is called with order [so] it is executed with [n] passes that
    store nothing and, if [ok], one that stores; [f] is the barrier of ARM *)
Definition runs (c : config) (f b : block) (k : kind) (ok : bool) (n : nat) (so : morder) : Prop :=
  In b blocks /\ kind_of b = Some k /\ k <> KFence /\ arm_fence f /\ executed c b so = true /\
  (may_fail k = false -> ok = true) /\ (loops b = false -> n = 0%nat).
(** the order the caller asked for the read, and for the write *)
Definition asked_read (k : kind) (ok : bool) (so fo : morder) : option morder :=
  match k with KStore => None | _ => Some (if ok then so else fo) end.
Definition asked_write (k : kind) (ok : bool) (so : morder) : option morder :=
  match k with KLoad => None | _ => if ok then Some so else None end.
Definition processor (ar : arch) : Reorder.machine :=
  match ar with X86 => Reorder.TSO | _ => Reorder.Weak end.
(** the acquires that the text does not implement, see C40 *)
Definition missing_acquire (b : block) (k : kind) (ok : bool) (so o : morder) : Prop :=
  match b_arch b with
  | Sparc => o <> SeqCst
  | AArch32 | AArch64 => (k = KLoad /\ b_arch b = AArch32 /\ b_bits b = 64) \/ (may_fail k = true /\ ok = false /\ ~ SpecOrder.acquiring so)
  | _ => False
  end.

(** Loads and stores that are accesses of the C++ code: D/core_arch_ops_gcc_alpha.hpp 101-113, _arm.hpp 70-82, _sparc.hpp
    76-88, and _x86.hpp 69-89 for other orders than seq_cst.  Where there is an instruction for the order
    (_aarch{32,64}.hpp) or always an asm statement (_ppc.hpp) they are not used with acquire and release. *)
Definition plain_store (c : config) (f : block) (ar : arch) (l : nat) (o : morder) : list item :=
  match ar with
  | Arm => (if rel o then block_items f else []) ++ [FenceModel.st l] ++ (if is_seq_cst o then block_items f else [])
  | X86 => fence_text c ar "fence_before" 0 o ++ [FenceModel.st l] ++ fence_text c ar "fence_after" 0 o
  | _ => fence_text c ar "fence_before" 0 o ++ [FenceModel.st l] ++ fence_text c ar "fence_after_store" 0 o
  end.
Definition plain_load (c : config) (f : block) (ar : arch) (l : nat) (o : morder) : list item :=
  match ar with
  | Arm => [FenceModel.ld l] ++ (if acq o then block_items f else [])
  | _ => [FenceModel.ld l] ++ fence_text c ar "fence_after" 0 o
  end.
Definition plain_stores (ar : arch) (o : morder) : Prop := match ar with Alpha | Arm | Sparc => True | X86 => o <> SeqCst | _ => False end.
Definition plain_loads (ar : arch) : Prop := match ar with Alpha | Arm | Sparc | X86 => True | _ => False end.
