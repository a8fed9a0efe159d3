(** * What an assembler block must do (C57).

    A block is right if, for every choice of registers the compiler may make, every argument and every behaviour of the
    other threads, it does to the storage exactly what the program of CoreModel.v or ExtraModel.v for the same
    function does, leaves the right values in its output operands, and changes no register, flag or pair of
    registers that the asm statement does not declare. *)
From Coq Require Import ZArith Arith List Bool String Ascii.
From Verif Require Import SpecInt Conv Prog Word CoreModel ExtraModel SpecHand AsmExpr AsmText AsmModel.
Import ListNotations.
Open Scope string_scope.
Open Scope Z_scope.
Open Scope list_scope.

(** ** What the function is to do *)

Inductive change := Set_ | Bin_ (b : binop) | Un_ (u : unop).
Inductive kind :=
| KFence | KLoad | KStore | KExchange | KWeak | KStrong
| KFetch (c : change)       (* returns the previous value *)
| KNew (c : change)         (* returns the new value *)
| KOpaque (c : change)      (* returns nothing *)
| KTest (c : change)        (* returns whether the new value is not 0 *)
| KBit (k : bitop).         (* returns the previous bit *)

Definition kinds : list (string * kind) :=
  [("fence_before", KFence); ("fence_after", KFence); ("fence_after_store", KFence);
   ("load", KLoad); ("store", KStore); ("exchange", KExchange);
   ("compare_exchange_weak", KWeak); ("compare_exchange_strong", KStrong);
   ("fetch_add", KFetch (Bin_ Add)); ("fetch_sub", KFetch (Bin_ Sub)); ("fetch_and", KFetch (Bin_ And));
   ("fetch_or", KFetch (Bin_ Or)); ("fetch_xor", KFetch (Bin_ Xor));
   ("fetch_negate", KFetch (Un_ Neg)); ("fetch_complement", KFetch (Un_ Not));
   ("add", KNew (Bin_ Add)); ("sub", KNew (Bin_ Sub)); ("bitwise_and", KNew (Bin_ And));
   ("bitwise_or", KNew (Bin_ Or)); ("bitwise_xor", KNew (Bin_ Xor));
   ("negate", KNew (Un_ Neg)); ("bitwise_complement", KNew (Un_ Not));
   ("opaque_add", KOpaque (Bin_ Add)); ("opaque_sub", KOpaque (Bin_ Sub)); ("opaque_and", KOpaque (Bin_ And));
   ("opaque_or", KOpaque (Bin_ Or)); ("opaque_xor", KOpaque (Bin_ Xor));
   ("opaque_negate", KOpaque (Un_ Neg)); ("opaque_complement", KOpaque (Un_ Not));
   ("add_and_test", KTest (Bin_ Add)); ("sub_and_test", KTest (Bin_ Sub)); ("and_and_test", KTest (Bin_ And));
   ("or_and_test", KTest (Bin_ Or)); ("xor_and_test", KTest (Bin_ Xor));
   ("bit_test_and_set", KBit BSet); ("bit_test_and_reset", KBit BReset); ("bit_test_and_complement", KBit BCompl)].
(** A block without operands is a fence, whatever function it is in. *)
Definition kind_of (b : block) : option kind :=
  match operands b with [] => Some KFence | _ => find (b_func b) kinds end.

(** the arguments of a call (value or bit number, expected and desired value), and the value that the block's
    compare-and-swap loop starts from *)
Record call := Call { q_v : Z; q_e : Z; q_d : Z; q_i : Z }.
(** its result: the value found, the value stored, success *)
Record result := Res { r_old : Z; r_new : Z; r_ok : bool }.

(** what an operation makes of the value [x] *)
Definition updated (b : block) (c : change) (v x : Z) : Z :=
  let y := wrap (b_bits b) (match c with Set_ => v | Bin_ f => bin_apply f x v | Un_ u => un_apply u x end) in
  match c with
  | Bin_ Add | Bin_ Sub => if b_value b <? b_bits b then reg_ext (b_signed b) (b_value b) (b_bits b) y else y
  | _ => y
  end.

(** the mnemonics of a block *)
Definition mnemonics (b : block) : list string := map (fun l => l_op (parse_line l)) (b_text b).
Definition lse_names : list string :=
  flat_map (fun n => flat_map (fun m => map (fun s => (n ++ m ++ s)%string) [""; "b"; "h"]) [""; "a"; "l"; "al"])
    ["swp"; "cas"; "ldadd"; "ldclr"; "ldset"; "ldeor"].
(** a block of one AArch64 atomic instruction *)
Definition lse (b : block) : bool := existsb (fun m => mem m lse_names) (mnemonics b).
(** a block that uses the x86 compare-and-swap of two words *)
Definition dcas (b : block) : bool := existsb (fun m => mem m ["cmpxchg8b"; "cmpxchg16b"]) (mnemonics b).

Section Programs.
  Variables (b : block) (a : addr) (q : call).
  Notation w := (b_bits b).
  Open Scope prog_scope.

  Definition retry (f : Z -> Z) : wprog result := x <- ll_loop a f ;; Ret (Res x (f x) true).
  Definition retry_new (f : Z -> Z) : wprog result := y <- ll_loop_new a f ;; Ret (Res 0 y true).
  (** load-linked and store-conditional: ARM, PowerPC, Alpha, AArch64 without LSE *)
  Definition llsc_program (k : kind) : wprog result :=
    match k with
    | KFence => Ret (Res 0 0 true)
    | KLoad => if (w =? 64) && match b_arch b with Arm | AArch32 => true | _ => false end
               then x <- ('(x, _) <- ll a ;; Ret x) ;; Ret (Res x 0 true) else x <- ld a ;; Ret (Res x 0 true)
    | KStore => if (w =? 64) && match b_arch b with Arm | AArch32 => true | _ => false end
                then retry (updated b Set_ (q_v q)) else st a (q_v q) ;;; Ret (Res 0 0 true)
    | KExchange => retry (updated b Set_ (q_v q))
    | KWeak => '(ok, x) <- ll_casw a (q_e q) (q_d q) ;; Ret (Res x 0 ok)
    | KStrong => '(ok, x) <- ll_cas a (q_e q) (q_d q) ;; Ret (Res x 0 ok)
    | KFetch c => retry (updated b c (q_v q))
    | KNew c | KOpaque c | KTest c => retry_new (updated b c (q_v q))
    | KBit _ => Ret (Res 0 0 true)
    end.
  (** the same with a pair of registers: AArch64, 16 bytes *)
  Definition pair_retry (f : Z -> Z) : wprog result :=
    x <- ldxp_loop a (fun lo hi => f (join w lo hi)) ;; Ret (Res x (f x) true).
  Definition pair_retry_new (f : Z -> Z) : wprog result :=
    y <- ldxp_loop_new a (fun lo hi => f (join w lo hi)) ;; Ret (Res 0 y true).
  Definition pair_program (k : kind) : wprog result :=
    match k with
    | KLoad => pair_retry (fun x => x)
    | KStore | KExchange => pair_retry (updated b Set_ (q_v q))
    | KWeak => '(ok, x) <- pair_casw a (q_e q) (q_d q) ;; Ret (Res x 0 ok)
    | KStrong => '(ok, x) <- pair_cas a (q_e q) (q_d q) ;; Ret (Res x 0 ok)
    | KFetch c => pair_retry (updated b c (q_v q))
    | KNew c | KOpaque c | KTest c => pair_retry_new (updated b c (q_v q))
    | KFence | KBit _ => Ret (Res 0 0 true)
    end.
  (** one atomic instruction: AArch64 with LSE.  The operand of a subtraction is negated and that of a conjunction is
      inverted before the block; the block adds, or clears the bits of its operand. *)
  Definition lse_program (k : kind) : wprog result :=
    match k with
    | KExchange => x <- xchg a (q_v q) ;; Ret (Res x 0 true)
    | KWeak | KStrong => '(ok, x) <- cas a (q_e q) (q_d q) ;; Ret (Res x 0 ok)
    | KFetch (Bin_ Sub) => x <- rmw a w (Bin Add (q_v q)) ;; Ret (Res x 0 true)
    | KFetch (Bin_ And) => x <- rmw a w (Bin And (wrap w (Z.lnot (q_v q)))) ;; Ret (Res x 0 true)
    | KFetch (Bin_ f) => x <- rmw a w (Bin f (q_v q)) ;; Ret (Res x 0 true)
    | _ => Ret (Res 0 0 true)
    end.
  Definition sparc_program (k : kind) : wprog result :=
    match k with
    | KExchange => x <- xchg a (q_v q) ;; Ret (Res x 0 true)
    | KWeak | KStrong => '(ok, x) <- cas a (q_e q) (q_d q) ;; Ret (Res x 0 ok)
    | _ => Ret (Res 0 0 true)
    end.
  Definition rmw_program (e : effect) : wprog result :=
    x <- rmw a w e ;; Ret (Res x (wrap w (eff_apply e x)) true).
  Definition effect_of (c : change) : effect :=
    match c with Set_ => Bin And 0 | Bin_ f => Bin f (q_v q) | Un_ u => Un u end.
  Definition bit_effect (k : bitop) : effect :=
    match k with
    | BSet => Bin Or (2 ^ q_v q)
    | BReset => Bin And (Z.lnot (2 ^ q_v q))
    | BCompl => Bin Xor (2 ^ q_v q)
    end.
  Definition x86_program (k : kind) : wprog result :=
    match k with
    | KFence => Ret (Res 0 0 true)
    | KLoad => if dcas b then '(_, x) <- cas a (q_i q) (q_i q) ;; Ret (Res x 0 true)
               else x <- ld a ;; Ret (Res x 0 true)
    | KStore => if dcas b then x <- dcas_swap w a (q_v q) ;; Ret (Res x 0 true)
                else st a (q_v q) ;;; Ret (Res 0 0 true)
    | KExchange => if dcas b then x <- dcas_swap w a (q_v q) ;; Ret (Res x 0 true)
                   else x <- xchg a (q_v q) ;; Ret (Res x 0 true)
    | KWeak | KStrong => '(ok, x) <- cas a (q_e q) (q_d q) ;; Ret (Res x 0 ok)
    | KFetch (Bin_ Add) => rmw_program (Bin Add (q_v q))
    | KFetch c => x <- cas_loop cas a (updated b c (q_v q)) (q_i q) ;; Ret (Res x (updated b c (q_v q) x) true)
    | KNew c => y <- cas_loop_new cas a (updated b c (q_v q)) (q_i q) ;; Ret (Res 0 y true)
    | KOpaque c | KTest c => rmw_program (effect_of c)
    | KBit f => rmw_program (bit_effect f)
    end.

  Definition program (k : kind) : wprog result :=
    match b_arch b with
    | Alpha | PowerPC | Arm | AArch32 => llsc_program k
    | AArch64 => if w =? 128 then pair_program k else if lse b then lse_program k else llsc_program k
    | Sparc => if match k with KFence => true | _ => false end then Ret (Res 0 0 true) else sparc_program k
    | X86 => x86_program k
    end.
End Programs.

(** ** Operands *)

(** a location of an operand: part [p_part] of [p_op]; is it in the list of outputs? *)
Record place := Place { p_loc : nat; p_op : operand; p_part : nat; p_two : bool; p_listed : bool }.
Fixpoint places_from (b : block) (out : bool) (i : nat) (l : list operand) : list place :=
  match l with
  | [] => []
  | o :: l => map (fun n => Place (loc b i n) o n (Nat.eqb (parts b o) 2) out) (seq 0 (parts b o)) ++ places_from b out (S i) l
  end.
Definition places (b : block) : list place :=
  places_from b true 0 (b_outs b) ++ places_from b false (List.length (b_outs b)) (b_ins b).

Definition in_memory (p : place) : bool := match storage_operand (p_op p) with Some _ => true | None => false end.
(** the register holds the address of the storage *)
Definition is_address (p : place) : bool := in_memory p || String.eqb (o_expr (p_op p)) "&storage".
(** the compiler gives the register a value before the block, takes a value from it after the block *)
Definition is_in (p : place) : bool := in_memory p || negb (p_listed p) || has "+" (o_con (p_op p)).
Definition is_out (p : place) : bool := p_listed p && negb (in_memory p).
(** declared to be written before the inputs have been read *)
Definition is_early (p : place) : bool := is_out p && has "&" (o_con (p_op p)).
(** the result variable that compare_exchange initialises to false *)
Definition is_success (p : place) : bool := String.eqb (o_expr (p_op p)) "success".

Inductive arg := AV | AE | AD | AI.
Definition arg_value (q : call) (x : arg) : Z := match x with AV => q_v q | AE => q_e q | AD => q_d q | AI => q_i q end.
(** all of a value, its first or second half in memory, its low or high half *)
Inductive piece := Whole | Word_ (second : bool) | Half_ (hi : bool).
Definition piece_bits (b : block) (c : piece) : Z := match c with Whole => b_bits b | _ => b_bits b / 2 end.
Definition piece_of (b : block) (c : piece) (x : Z) : Z :=
  match c with Whole => x | Word_ s => half (b_bits b) (xorb s (b_big b)) x | Half_ hi => half (b_bits b) hi x end.
Definition both (n m : string) : list (string * piece) := [(n, Word_ false); (m, Word_ true)].
(** a value in two registers is there in memory order *)
Definition part_of (p : place) (c : piece) : piece :=
  match c with Whole => if p_two p then Word_ (Nat.eqb (p_part p) 1) else Whole | c => c end.

(** C++ expressions of inputs *)
Definition v_names : list (string * piece) :=
  [("v", Whole); ("value", Whole); ("(temp_storage_type)v", Whole);
   ("(std::uint16_t)bit_number", Whole); ("(std::uint32_t)bit_number", Whole); ("(std::uint64_t)bit_number", Whole);
   ("(std::uint32_t)v", Half_ false); ("(std::uint32_t)(v >> 32u)", Half_ true)] ++
  both "reinterpret_cast< const aliasing_uint64_t* >(&v)[0]" "reinterpret_cast< const aliasing_uint64_t* >(&v)[1]" ++
  both "value.as_uint64[0u]" "value.as_uint64[1u]".
Definition e_names : list (string * piece) :=
  [("expected", Whole); ("previous", Whole); ("atomics::detail::zero_extend< extended_storage_type >(expected)", Whole)] ++
  both "e.as_uint64[0u]" "e.as_uint64[1u]" ++
  both "reinterpret_cast< aliasing_uint64_t* >(&expected)[0]" "reinterpret_cast< aliasing_uint64_t* >(&expected)[1]".
Definition d_names : list (string * piece) :=
  [("desired", Whole); ("(std::uint32_t)desired", Half_ false); ("(std::uint32_t)(desired >> 32u)", Half_ true)] ++
  both "d.as_uint64[0u]" "d.as_uint64[1u]" ++
  both "reinterpret_cast< const aliasing_uint64_t* >(&desired)[0]" "reinterpret_cast< const aliasing_uint64_t* >(&desired)[1]".
(** read from the storage before the block; with LSE, the expected value *)
Definition i_names : list (string * piece) := [("res", Whole); ("original", Whole)].

Definition pick (x : arg) (r : option piece) (else_ : option (arg * piece)) : option (arg * piece) :=
  match r with Some c => Some (x, c) | None => else_ end.
Definition arg_of (b : block) (p : place) : option (arg * piece) :=
  let n := o_expr (p_op p) in
  match pick AV (find n v_names) (pick AE (find n e_names) (pick AD (find n d_names)
          (pick (match b_arch b with AArch64 => AE | _ => AI end) (find n i_names) None))) with
  | Some (x, c) => Some (x, part_of p c)
  | None => None
  end.
Definition is_bit_number (p : place) : bool :=
  mem (o_expr (p_op p)) ["(std::uint16_t)bit_number"; "(std::uint32_t)bit_number"; "(std::uint64_t)bit_number"].

(** the bits of a register above the value: anything, zero, or copies of the sign *)
Inductive above := Any | Zero | Sign.
(** [careful]: the compiler keeps expected values of less than 4 bytes zero-extended in registers (PowerPC, AArch32,
    AArch64), and 4-byte values sign-extended on Alpha.  The asm statements do not ask for that. *)
Definition above_of (careful : bool) (b : block) (p : place) : above :=
  if String.eqb (o_expr (p_op p)) "atomics::detail::zero_extend< extended_storage_type >(expected)" then Zero
  else if careful then
    match b_arch b, arg_of b p with
    | Alpha, _ => if b_bits b =? 32 then Sign else Any
    | (PowerPC | AArch32 | AArch64), Some (AE, _) => if b_bits b <? 32 then Zero else Any
    | _, _ => Any
    end
  else Any.

(** the register at [p] may hold [z] before the block *)
Definition content (careful : bool) (b : block) (q : call) (base : Z) (p : place) (z : Z) : Prop :=
  if is_address p then z = base
  else if is_success p then wrap 8 z = 0
  else match arg_of b p with
  | Some (x, c) =>
      let v := piece_of b c (arg_value q x) in
      match above_of careful b p with
      | Any => wrap (piece_bits b c) z = v
      | Zero => z = v
      | Sign => z = sval (piece_bits b c) v
      end
  | None => True
  end.

(** ** Registers *)

(** 0: general registers; 1: vector registers; 2: variables in memory *)
Definition file (b : block) (p : place) : nat :=
  if has "x" (o_con (p_op p)) then 1
  else if has "m" (o_con (p_op p)) && negb (has "q" (o_con (p_op p))) && negb (in_memory p) then 2
  else 0.
(** [res] and [original] of x86 compare-and-swap loops have just been read from the storage, which is volatile *)
Definition is_fresh (b : block) (p : place) : bool :=
  match b_arch b, arg_of b p with X86, Some (AI, _) => is_in p | _, _ => false end.
(** an input whose value is never the address of the storage *)
Definition no_address (careful : bool) (b : block) (p : place) : bool :=
  is_in p && (is_success p || is_bit_number p || match above_of careful b p with Any => false | _ => true end).
Definition same_operand (p p' : place) : bool :=
  Bool.eqb (p_listed p) (p_listed p') && String.eqb (o_name (p_op p)) (o_name (p_op p'))
  && String.eqb (o_expr (p_op p)) (o_expr (p_op p')).

(** [one_way p p']: nothing about [p] forbids that it is in the same register as [p'] *)
Definition one_way (careful : bool) (b : block) (p p' : place) : bool :=
  Nat.eqb (file b p) (file b p')
  && negb (is_out p && is_out p')              (* two outputs *)
  && negb (is_early p && is_in p')             (* an early-clobber output and an input *)
  && negb (is_fresh b p && is_in p')
  && negb (is_address p && no_address careful b p')
  && negb (same_operand p p')
  && negb (careful && is_success p && is_in p).  (* finding 34 in DESIGN.md *)
(** otherwise an output that is not early-clobber may share a register with an input, and inputs of the same value
    may share a register *)
Definition may_share (careful : bool) (b : block) (p p' : place) : bool := one_way careful b p p' && one_way careful b p' p.

(** registers that a constraint letter of x86 stands for *)
Definition letters : list (string * list (list nat)) :=
  [("a", [[1]]); ("b", [[2]]); ("c", [[3]]); ("d", [[4]]); ("S", [[5]]); ("D", [[6]]); ("DS", [[6; 5]]); ("A", [[1]; [4]])]%nat.
Fixpoint bare (s : string) : string :=
  match s with
  | String c r => if mem (String c "") ["="; "+"; "&"] then bare r else s
  | "" => ""
  end.
Definition fixed (b : block) (p : place) : option (list nat) :=
  match b_arch b with
  | X86 => match find (bare (o_con (p_op p))) letters with Some l => nth_error l (p_part p) | None => None end
  | _ => None
  end.
Definition clobber_names : list (string * nat) :=
  [("eax", 1); ("ebx", 2); ("ecx", 3); ("edx", 4); ("esi", 5); ("edi", 6);
   ("rax", 1); ("rbx", 2); ("rcx", 3); ("rdx", 4); ("rsi", 5); ("rdi", 6)]%nat.
Definition clobbered (b : block) (m : nat) : bool :=
  existsb (fun c => match find c clobber_names with Some n => Nat.eqb n m | None => false end) (b_clob b).
Definition flags_declared (b : block) : bool :=
  match b_arch b with X86 => true | _ => mem "cc" (b_clob b) || mem "cr0" (b_clob b) end.

(** the compiler may choose the registers like this *)
Record legal (careful : bool) (b : block) (alloc : nat -> nat) : Prop := {
  lg_machine : forall m, (1 <= m <= nmach (b_arch b))%nat -> alloc m = m;
  lg_fixed : forall p l, In p (places b) -> fixed b p = Some l -> In (alloc (p_loc p)) l;
  lg_clobber : forall p m, In p (places b) -> clobbered b m = true -> alloc (p_loc p) <> m;
  lg_file : forall p, In p (places b) -> file b p <> 0%nat -> (nmach (b_arch b) < alloc (p_loc p))%nat;
  lg_share : forall p p', In p (places b) -> In p' (places b) -> p_loc p <> p_loc p' -> alloc (p_loc p) = alloc (p_loc p') ->
    may_share careful b p p' = true }.

(** the state in which the block starts *)
Record begins (careful : bool) (b : block) (alloc : nat -> nat) (q : call) (base : Z) (s : cst) : Prop := {
  bg_content : forall p, In p (places b) -> is_in p = true -> content careful b q base p (g s (alloc (p_loc p)));
  (* the load by compare-and-swap compares with whatever is in ebx and ecx *)
  bg_any : b_arch b = X86 -> b_func b = "load" ->
    q_i q = join (b_bits b) (wrap (b_bits b / 2) (g s ebx)) (wrap (b_bits b / 2) (g s ecx)) }.
Definition address_bits (ar : arch) : Z := match ar with Arm | AArch32 => 32 | _ => 64 end.
(** The blocks with inc and dec are in the branch of an "if" for which the value is the constant 1. *)
Definition guarded (b : block) : bool :=
  existsb (fun m => mem m ["incb"; "incw"; "incl"; "incq"; "decb"; "decw"; "decl"; "decq"]) (mnemonics b).
Definition arguments (b : block) (k : kind) (q : call) : Prop :=
  (forall x, 0 <= arg_value q x < 2 ^ b_bits b) /\ match k with KBit _ => q_v q < b_bits b | _ => True end /\ (guarded b = true -> q_v q = 1).

(** ** Results *)

Inductive outcome := OOld (c : piece) | ONew (c : piece) | OOk | OTest | OBit.
Definition old_names : list (string * piece) :=
  [("original", Whole); ("v", Whole); ("value", Whole); ("old_value", Whole); ("res", Whole); ("expected", Whole); ("previous", Whole)] ++
  both "old_bits[0]" "old_bits[1]" ++ both "value_bits[0]" "value_bits[1]" ++
  both "original.as_uint64[0u]" "original.as_uint64[1u]" ++ both "v.as_uint64[0u]" "v.as_uint64[1u]" ++
  both "reinterpret_cast< aliasing_uint64_t* >(&expected)[0]" "reinterpret_cast< aliasing_uint64_t* >(&expected)[1]".
Definition new_names : list (string * piece) := ("result", Whole) :: both "result.as_uint64[0u]" "result.as_uint64[1u]".
Definition old_of (n : string) : option outcome := match find n old_names with Some c => Some (OOld c) | None => None end.
(** what the C++ variable of an output operand must hold after the block; [None]: it is not used after the block *)
Definition outcome_of (b : block) (k : kind) (n : string) : option outcome :=
  match k with
  | KFence | KStore | KOpaque _ => None
  | KLoad | KExchange | KFetch _ => old_of n
  | KNew _ => match find n new_names with Some c => Some (ONew c) | None => None end
  | KWeak | KStrong =>
      if String.eqb n "success" then Some OOk
      else match b_arch b with Sparc => if String.eqb n "desired" then Some (OOld Whole) else None | _ => old_of n end
  | KTest _ => if String.eqb n "res" then Some OTest else None
  | KBit _ => if String.eqb n "res" then Some OBit else None
  end.
Definition place_outcome (b : block) (k : kind) (p : place) : option outcome :=
  match outcome_of b k (o_expr (p_op p)) with
  | Some (OOld c) => Some (OOld (part_of p c))
  | Some (ONew c) => Some (ONew (part_of p c))
  | x => x
  end.
Definition truth (o : outcome) (q : call) (r : result) : bool :=
  match o with
  | OOk => r_ok r
  | OTest => negb (r_new r =? 0)
  | OBit => Z.testbit (r_old r) (q_v q)
  | _ => false
  end.
Definition outcome_value (b : block) (o : outcome) (q : call) (r : result) : Z :=
  match o with
  | OOld c => piece_of b c (r_old r)
  | ONew c => piece_of b c (r_new r)
  | o => if truth o q r then 1 else 0
  end.
Definition outcome_bits (b : block) (p : place) (o : outcome) : Z :=
  match o with
  | OOld c | ONew c => piece_bits b c
  | _ => if String.eqb (o_type (p_op p)) "bool" then 8 else 32
  end.
(** "=@ccz" and the like: a condition on the flags *)
Definition condition (c : string) : option cnd :=
  find c [("=@ccz", CV fZ); ("=@ccnz", CNot (CV fZ)); ("=@ccc", CV fC)].

(** the state [s'] in which the block ends, having begun in [s] *)
Record ends (b : block) (k : kind) (alloc : nat -> nat) (q : call) (s s' : cst) (r : result) : Prop := {
  en_out : forall p o, In p (places b) -> is_out p = true -> place_outcome b k p = Some o ->
    wrap (outcome_bits b p o) (g s' (alloc (p_loc p))) = outcome_value b o q r;
  en_flag : forall x, In x (b_outs b) -> has "@" (o_con x) = true ->
    exists c o, condition (o_con x) = Some c /\ outcome_of b k (o_expr x) = Some o /\ cev alloc s' c = truth o q r;
  en_frame : forall m, (forall p, In p (places b) -> is_out p = true -> alloc (p_loc p) <> m) -> clobbered b m = false -> g s' m = g s m;
  en_flags : flags_declared b = false -> fl s' fZ = fl s fZ /\ fl s' fC = fl s fC }.

(** ** Answers of the memory *)

(** objects of [w] bits hold values of [w] bits *)
Definition fitting (w : Z) (d : did wact wresp) : Prop :=
  match d with
  | existT _ (ALoad _) x | existT _ (AXchg _ _) x | existT _ (ARmw _ _ _) x => 0 <= x < 2 ^ w
  | existT _ (AHalf _ _ _) x => 0 <= x < 2 ^ (w / 2)
  | existT _ (ACas _ _ _) x => 0 <= snd x < 2 ^ w
  | existT _ (ALL _) x => 0 <= fst x < 2 ^ w
  | existT _ (ALLHalf _ _ _) x => 0 <= fst x < 2 ^ (w / 2)
  | _ => True
  end.

(** ** The claim *)

Definition block_ok (careful : bool) (b : block) : Prop :=
  exists code k, assemble b = Some code /\ kind_of b = Some k /\
  forall alloc q base a s, legal careful b alloc -> arguments b k q -> begins careful b alloc q base s ->
  0 <= base < 2 ^ address_bits (b_arch b) ->
  forall tr o, Forall (fitting (b_bits b)) tr -> path (asm_prog code alloc (b_bits b) base a s) tr o ->
  match o with
  | None => path (program b a q k) tr None                     (* still running *)
  | Some None => False                                         (* fault *)
  | Some (Some s') => exists r, path (program b a q k) tr (Some r) /\ ends b k alloc q s s' r
  end.

(** The block writes to the storage; the asm statement says so. *)
Definition writes (code : list uop) : bool :=
  existsb (fun u => match u with USt _ _ | UXc _ _ | URm _ _ _ | URu _ _ | UCs _ _ _ | USc _ _ => true | _ => false end) code.
Definition says_it_writes (b : block) : bool :=
  mem "memory" (b_clob b) || existsb (fun o => match storage_operand o with Some _ => true | None => false end) (b_outs b).

(** ** Thumb 2: instructions that are executed conditionally *)

Fixpoint last2 (s : string) : string :=
  match s with String _ (String _ (String _ _) as r) => last2 r | _ => s end.
(** the condition in a mnemonic; branches have their own encoding *)
Definition condition_of (m : string) : option string :=
  if mem m ["teq"; "beq"; "bne"] then None else if mem (last2 m) ["eq"; "ne"] then Some (last2 m) else None.
(** the conditions of the instructions that follow an "it" *)
Definition it_block (m c : string) : option (list string) :=
  if String.eqb m "it" then Some [c] else if String.eqb m "itt" then Some [c; c] else None.
Fixpoint it_from (pending : list string) (l : list (list string)) : bool :=
  match l with
  | [] => match pending with [] => true | _ => false end
  | [] :: l => match pending with [] => it_from [] l | _ => false end   (* only a label: no jumps into a block *)
  | (m :: args) :: l =>
      match it_block m (hd "" args), pending, condition_of m with
      | Some cs, [], _ => it_from cs l
      | None, [], None => it_from [] l
      | None, c :: pending, Some c' => String.eqb c c' && it_from pending l
      | _, _, _ => false
      end
  end.
Definition is_label (w : string) : bool := has ":" w.
Definition instruction (s : string) : list string := match words s with w :: l => if is_label w then l else w :: l | [] => [] end.
(** each conditional instruction is announced by an "it" with the same condition, and nothing else is *)
Definition it_ok (b : block) : bool := it_from [] (map instruction (b_text b)).

(** ** Blocks for which the claim fails *)

(** by line of the file and size; see findings 32 to 36 in DESIGN.md *)
Definition always_wrong (b : block) : bool := match b_arch b with X86 => (b_line b =? 510) && (b_bits b =? 64) | _ => false end.
Definition unlucky_lines (ar : arch) : list (Z * Z) :=
  match ar with
  | Alpha => [(147, 32); (177, 32)]
  | PowerPC => [(425, 8); (458, 8); (793, 16); (826, 16)]
  | Arm => [(115, 32); (151, 32); (381, 8); (417, 8); (775, 16); (811, 16); (1198, 64); (1233, 64)]
  | AArch32 => [(135, 8); (166, 8); (417, 16); (448, 16)]
  | AArch64 => [(173, 8); (221, 8); (579, 16); (627, 16)]
  | Sparc => []
  | X86 => [(510, 64)]
  end.
Definition unlucky (b : block) : bool := existsb (fun x => (b_line b =? fst x) && (b_bits b =? snd x)) (unlucky_lines (b_arch b)).

(** ** Two programs that do the same things: the same accesses with the same answers, and the same results *)
Definition same {R} (p p' : wprog R) : Prop := forall tr o, path p tr o <-> path p' tr o.
