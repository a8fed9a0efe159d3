(** * Meaning of assembler blocks.

    Every instruction becomes a short list of micro-operations: assignments to registers and flags, jumps, and at
    most two accesses to the storage.  The instruction tables follow the architecture manuals; they cover exactly
    the instructions that occur in the blocks of the library.  [D] abbreviates include/boost/atomic/detail. *)
From Coq Require Import ZArith Arith List Bool String Ascii.
From Verif Require Import Conv SpecInt Prog Word AsmExpr AsmText.
Import ListNotations.
Open Scope string_scope.
Open Scope Z_scope.
Open Scope list_scope.

(** ** Registers

    A block's code names locations.  Location 0 holds the answer of the last access to the storage.  On x86, locations
    1 to 6 are eax, ebx, ecx, edx, esi, edi (rax, ...).  The others are the operands of the asm statement,
    one location for each register they take up.  Which register that is is up to the compiler. *)
Definition nmach (ar : arch) : nat := match ar with X86 => 6 | _ => 0 end.

Definition storage_expr (e : string) : option bool :=
  find e [("storage", false);
          ("reinterpret_cast< volatile aliasing_uint32_t* >(&storage)[1]", true);
          ("reinterpret_cast< volatile aliasing_uint64_t* >(&storage)[1]", true)].
(** the operand is the storage as a memory operand; is it the high half? *)
Definition storage_operand (o : operand) : option bool := storage_expr (o_expr o).

(** number of registers an operand takes: none for flag outputs; two for 8-byte values on 32-bit ARM and for the x86
    pair eax:edx *)
Definition parts (b : block) (o : operand) : nat :=
  if has "@" (o_con o) then 0
  else match storage_operand o with
  | Some _ => 1
  | None =>
      match b_arch b with
      | X86 => if has "A" (o_con o) then 2 else 1
      | Arm | AArch32 => if (b_bits b =? 64) && mem (o_expr o) ["original"; "result"; "v"; "expected"; "desired"] then 2 else 1
      | _ => 1
      end
  end.
Definition total (l : list nat) : nat := fold_right Nat.add 0%nat l.
Definition loc (b : block) (i p : nat) : nat :=
  (1 + nmach (b_arch b) + total (map (parts b) (firstn i (operands b))) + p)%nat.
Definition nlocs (b : block) : nat := (1 + nmach (b_arch b) + total (map (parts b) (operands b)))%nat.

(** flags: 0 = zero or equal, 1 = carry; 2 is not a flag of the processor but the outcome of the last store-conditional
    or compare-and-swap *)
Definition fZ : nat := 0%nat.
Definition fC : nat := 1%nat.
Definition fOk : nat := 2%nat.

(** ** Micro-operations *)

Inductive target := TLab (n : nat) (forward : bool) | TOff (z : Z) | TSkip (n : nat) | TAbs (n : nat).
Inductive uop :=
| UMov (d : nat) (e : expr)
| UFlag (f : nat) (c : cnd)
| UJmp (c : cnd) (t : target)
| UExit
| UDiff (x y : nat)                       (* unpredictable if these locations are the same register *)
| UBelow (e : expr) (n : Z)               (* not for numbers outside 0..n-1 *)
| ULd (m : nat) | UHf (m : nat) (hi : bool)
| USt (m : nat) (e : expr) | UXc (m : nat) (e : expr)
| URm (m : nat) (b : binop) (e : expr) | URu (m : nat) (u : unop)
| UCs (m : nat) (e d : expr)
| ULk (m : nat) | ULkH (m : nat) (hi : bool) | USc (m : nat) (e : expr).

Section Decode.
  Variable b : block.
  Notation w := (b_bits b).

  Definition expr_at (i : nat) : option operand := nth_error (operands b) i.

  (** a memory operand: the location of the address, and whether it is the second half of the storage *)
  Definition memory (o : opnd) : option (nat * bool) :=
    match o with
    | PReg i md =>
        match expr_at i with
        | Some x => match storage_operand x with Some hi => Some (loc b i 0, hi) | None => None end
        | None => None
        end
    | PInd i off =>
        if off =? 0 then Some (loc b i 0, false) else if off =? w / 16 then Some (loc b i 0, true) else None
    | _ => None
    end.
  (** a register operand; %H of ARM is the second register of a pair *)
  Definition register (o : opnd) : option nat :=
    match o with
    | PReg i md =>
        match expr_at i with
        | Some x =>
            match storage_operand x with
            | Some _ => None
            | None => if match md with Some "H"%char => true | _ => false end
                      then (if Nat.eqb (parts b x) 2 then Some (loc b i 1) else None)
                      else Some (loc b i 0)
            end
        | None => None
        end
    | _ => None
    end.
  Definition source (o : opnd) : option expr :=
    match o with
    | PNum z => Some (EC z)
    | PZero => Some (EC 0)
    | _ => match register o with Some r => Some (EV r) | None => None end
    end.

  Definition bnd {A B} (x : option A) (f : A -> option B) : option B := match x with Some a => f a | None => None end.
  Notation "x <-- p ; q" := (bnd p (fun x => q)) (at level 61, p at next level, right associativity).
  Notation "' pat <-- p ; q" := (bnd p (fun x => match x with pat => q end)) (at level 61, pat pattern, p at next level, right associativity).

  (** access to all of the storage with an instruction of [k] bits *)
  Definition whole (o : opnd) (k : Z) : option nat :=
    '(m, hi) <-- memory o ; if (k =? w) && negb hi then Some m else None.

  Definition lo_of (x : expr) : expr := ELow (w / 2) x.
  Definition hi_of (x : expr) : expr := ELow (w / 2) (EHi (w / 2) x).
  (** the two registers of a pair hold the halves in memory order *)
  Definition first_of (x : expr) : expr := if b_big b then hi_of x else lo_of x.
  Definition second_of (x : expr) : expr := if b_big b then lo_of x else hi_of x.
  Definition pair_of (x y : expr) : expr := if b_big b then EJoin (w / 2) y x else EJoin (w / 2) x y.

  (** two operand form: the destination is also the first source *)
  Definition three (args : list opnd) : option (opnd * opnd * opnd) :=
    match args with
    | [d; x; y] => Some (d, x, y)
    | [d; y] => Some (d, d, y)
    | _ => None
    end.

  Definition bitops : list (string * binop) := [("and", And); ("orr", Or); ("eor", Xor)].
  Definition taken (c : cnd) (t : opnd) : option (list uop) :=
    match t with PLab n f => Some [UJmp c (TLab n f)] | POff z => Some [UJmp c (TOff z)] | _ => None end.

  (** tables of mnemonics; the first entry for a mnemonic counts *)
  Definition each {A B} (l : list (string * A)) (f : A -> B) : list (string * B) := map (fun '(n, x) => (n, f x)) l.
  Definition run (op : string) (l : list (string * (list opnd -> option (list uop)))) (args : list opnd) : option (list uop) :=
    match find op l with Some f => f args | None => None end.

  (** *** Load-exclusive and store-exclusive of ARM and AArch64 *)

  Definition ll1 (k : Z) (d m : opnd) : option (list uop) :=
    r <-- register d ; a <-- whole m k ; Some [ULk a; UMov r (EV 0)].
  (** status register: 0 if the store was done, 1 if not; it must not be the address or the source *)
  Definition sc1 (k : Z) (s v m : opnd) : option (list uop) :=
    rs <-- register s ; rv <-- register v ; a <-- whole m k ;
    Some [UDiff rs rv; UDiff rs a; USc a (ELow k (EV rv)); UMov rs (EB (CNot (CV fOk)))].
  (** ldrexd and ldaexd are single-copy atomic *)
  Definition ll2 (d e m : opnd) : option (list uop) :=
    r <-- register d ; q <-- register e ; a <-- whole m 64 ;
    Some [UDiff r q; ULk a; UMov r (first_of (EV 0)); UMov q (second_of (EV 0))].
  (** ldxp and ldaxp are not: the halves may come from different instants unless the stxp succeeds *)
  Definition ll2h (d e m : opnd) : option (list uop) :=
    r <-- register d ; q <-- register e ; a <-- whole m 128 ;
    Some (UDiff r q :: if b_big b then [ULkH a false; UMov q (EV 0); ULkH a true; UMov r (EV 0)]
          else [ULkH a false; UMov r (EV 0); ULkH a true; UMov q (EV 0)]).
  Definition sc2 (k : Z) (s v u m : opnd) : option (list uop) :=
    rs <-- register s ; rv <-- register v ; ru <-- register u ; a <-- whole m k ;
    Some [UDiff rs rv; UDiff rs ru; UDiff rs a; USc a (ELow k (pair_of (EV rv) (EV ru))); UMov rs (EB (CNot (CV fOk)))].

  (** *** 32-bit ARM (A32 and T32) *)

  Definition arm_ll : list (string * Z) :=
    [("ldrex", 32); ("ldrexb", 8); ("ldrexh", 16); ("ldaex", 32); ("ldaexb", 8); ("ldaexh", 16)].
  Definition arm_sc : list (string * Z) :=
    [("strex", 32); ("strexb", 8); ("strexh", 16); ("stlex", 32); ("stlexb", 8); ("stlexh", 16)].
  (** the same, executed if the zero flag is set *)
  Definition arm_sceq : list (string * Z) := [("strexeq", 32); ("strexbeq", 8); ("strexheq", 16)].
  Definition arm_ld : list (string * Z) := [("lda", 32); ("ldab", 8); ("ldah", 16)].
  Definition arm_st : list (string * Z) := [("stl", 32); ("stlb", 8); ("stlh", 16)].
  Definition arm_alu : list (string * binop) := [("add", Add); ("sub", Sub); ("and", And); ("orr", Or); ("eor", Xor)].

  Definition arm (op : string) (args : list opnd) : option (list uop) :=
    let set d e := r <-- register d ; Some [UMov r (ELow 32 e)] in
    run op (
      each arm_ll (fun k args => match args with [d; m] => ll1 k d m | _ => None end) ++
      each arm_sc (fun k args => match args with [s; v; m] => sc1 k s v m | _ => None end) ++
      each arm_sceq (fun k args => match args with
        | [s; v; m] => l <-- sc1 k s v m ; Some (UJmp (CNot (CV fZ)) (TSkip (List.length l)) :: l) | _ => None end) ++
      each arm_ld (fun k args => match args with [d; m] => r <-- register d ; a <-- whole m k ; Some [ULd a; UMov r (EV 0)] | _ => None end) ++
      each arm_st (fun k args => match args with [v; m] => r <-- register v ; a <-- whole m k ; Some [USt a (ELow k (EV r))] | _ => None end) ++
      each arm_alu (fun f args => '(d, x, y) <-- three args ; x <-- source x ; y <-- source y ; set d (EBin f x y)) ++ [
      ("ldrexd", fun args => match args with [d; e; m] => ll2 d e m | _ => None end);
      ("ldaexd", fun args => match args with [d; e; m] => ll2 d e m | _ => None end);
      ("strexd", fun args => match args with [s; v; u; m] => sc2 64 s v u m | _ => None end);
      ("stlexd", fun args => match args with [s; v; u; m] => sc2 64 s v u m | _ => None end);
      ("adds", fun args => '(d, x, y) <-- three args ; x <-- source x ; y <-- source y ; r <-- register d ;
        Some [UFlag fZ (CEq 32 (EBin Add x y) (EC 0)); UFlag fC (CCar 32 x y); UMov r (ELow 32 (EBin Add x y))]);
      ("adc", fun args => '(d, x, y) <-- three args ; x <-- source x ; y <-- source y ; set d (EBin Add (EBin Add x y) (EB (CV fC))));
      ("subs", fun args => '(d, x, y) <-- three args ; x <-- source x ; y <-- source y ; r <-- register d ;
        Some [UFlag fZ (CEq 32 (EBin Sub x y) (EC 0)); UFlag fC (CNot (CLt 32 x y)); UMov r (ELow 32 (EBin Sub x y))]);
      ("sbc", fun args => '(d, x, y) <-- three args ; x <-- source x ; y <-- source y ; set d (EBin Sub (EBin Sub x y) (EB (CNot (CV fC)))));
      ("rsb", fun args => '(d, x, y) <-- three args ; x <-- source x ; y <-- source y ; set d (EBin Sub y x));
      ("eors", fun args => match args with [d; x; PNum 1] => x <-- source x ; r <-- register d ;
        Some [UFlag fZ (CEq 32 (EBin Xor x (EC 1)) (EC 0)); UMov r (ELow 32 (EBin Xor x (EC 1)))] | _ => None end);
      ("eoreq", fun args => match args with [d; x; y] => x <-- source x ; y <-- source y ; l <-- set d (EBin Xor x y) ; Some (UJmp (CNot (CV fZ)) (TSkip 1) :: l) | _ => None end);
      ("mvn", fun args => match args with [d; x] => x <-- source x ; set d (EUn Not x) | _ => None end);
      ("mov", fun args => match args with [d; x] => x <-- source x ; set d x | _ => None end);
      ("uxtb", fun args => match args with [d; x] => x <-- source x ; set d (ELow 8 x) | _ => None end);
      ("uxth", fun args => match args with [d; x] => x <-- source x ; set d (ELow 16 x) | _ => None end);
      ("sxtb", fun args => match args with [d; x] => x <-- source x ; set d (ESx 8 x) | _ => None end);
      ("sxth", fun args => match args with [d; x] => x <-- source x ; set d (ESx 16 x) | _ => None end);
      ("teq", fun args => match args with [x; y] => x <-- source x ; y <-- source y ; Some [UFlag fZ (CEq 32 x y)] | _ => None end);
      ("cmp", fun args => match args with [x; y] => x <-- source x ; y <-- source y ; Some [UFlag fC (CNot (CLt 32 x y)); UFlag fZ (CEq 32 x y)] | _ => None end);
      ("cmpeq", fun args => match args with [x; y] => x <-- source x ; y <-- source y ;
        (* if the zero flag is set, compare, otherwise leave the flags alone *)
        Some [UFlag fC (CNot (CAnd (CNot (CAnd (CV fZ) (CNot (CLt 32 x y)))) (CNot (CAnd (CNot (CV fZ)) (CV fC)))));
              UFlag fZ (CAnd (CV fZ) (CEq 32 x y))] | _ => None end);
      ("bne", fun args => match args with [t] => taken (CNot (CV fZ)) t | _ => None end);
      ("beq", fun args => match args with [t] => taken (CV fZ) t | _ => None end);
      ("it", fun args => match args with [PEq] => Some [] | _ => None end);
      ("itt", fun args => match args with [PEq] => Some [] | _ => None end)]) args.

  (** *** AArch64 *)

  Inductive a64 := XLoad | XStore | XLL | XSC | XSwap | XCas | XRmw (f : binop) (inv : bool).
  Definition a64_mem : list (string * (a64 * option Z)) :=
    flat_map (fun '(n, x) => [(n, (x, None)); ((n ++ "b")%string, (x, Some 8)); ((n ++ "h")%string, (x, Some 16))])
      ([("ldxr", XLL); ("ldaxr", XLL); ("stxr", XSC); ("stlxr", XSC); ("ldar", XLoad); ("ldapr", XLoad); ("stlr", XStore)] ++
       flat_map (fun '(n, x) => map (fun m => ((n ++ m)%string, x)) [""; "a"; "l"; "al"]%string)
         [("swp", XSwap); ("cas", XCas); ("ldadd", XRmw Add false); ("ldclr", XRmw And true); ("ldset", XRmw Or false); ("ldeor", XRmw Xor false)]).
  Definition a64_alu : list (string * binop) := [("add", Add); ("sub", Sub); ("and", And); ("orr", Or); ("eor", Xor)].
  (** %w is the 32-bit view of a register, %x the 64-bit view *)
  Definition a64_width (o : opnd) : option Z :=
    match o with PReg _ (Some "w"%char) => Some 32 | PReg _ (Some "x"%char) => Some 64 | _ => None end.

  Definition aarch64 (op : string) (args : list opnd) : option (list uop) :=
    let set d e := r <-- register d ; k <-- a64_width d ; Some [UMov r (ELow k e)] in
    let width sz o := match sz with Some k => Some k | None => a64_width o end in
    run op (
      each a64_mem (fun '(x, sz) args =>
        match x with
        | XLL => match args with [d; m] => k <-- width sz d ; ll1 k d m | _ => None end
        | XSC => match args with [s; v; m] => k <-- width sz v ; sc1 k s v m | _ => None end
        | XLoad => match args with [d; m] => k <-- width sz d ; r <-- register d ; a <-- whole m k ; Some [ULd a; UMov r (EV 0)] | _ => None end
        | XStore => match args with [v; m] => k <-- width sz v ; r <-- register v ; a <-- whole m k ; Some [USt a (ELow k (EV r))] | _ => None end
        | XSwap => match args with [v; d; m] => k <-- width sz v ; r <-- register v ; q <-- register d ; a <-- whole m k ;
            Some [UXc a (ELow k (EV r)); UMov q (EV 0)] | _ => None end
        | XCas => match args with [e; d; m] => k <-- width sz e ; r <-- register e ; q <-- register d ; a <-- whole m k ;
            Some [UCs a (ELow k (EV r)) (ELow k (EV q)); UMov r (EV 0)] | _ => None end
        | XRmw f inv => match args with [v; d; m] => k <-- width sz v ; r <-- register v ; q <-- register d ; a <-- whole m k ;
            Some [URm a f (ELow k (if inv then EUn Not (EV r) else EV r)); UMov q (EV 0)] | _ => None end
        end) ++
      each a64_alu (fun f args => match args with [d; x; y] => x <-- source x ; y <-- source y ; set d (EBin f x y) | _ => None end) ++ [
      ("ldxp", fun args => match args with [d; e; m] => ll2h d e m | _ => None end);
      ("ldaxp", fun args => match args with [d; e; m] => ll2h d e m | _ => None end);
      ("stxp", fun args => match args with [s; v; u; m] => sc2 128 s v u m | _ => None end);
      ("stlxp", fun args => match args with [s; v; u; m] => sc2 128 s v u m | _ => None end);
      ("adds", fun args => match args with [d; x; y] => k <-- a64_width d ; x <-- source x ; y <-- source y ; r <-- register d ;
        Some [UFlag fZ (CEq k (EBin Add x y) (EC 0)); UFlag fC (CCar k x y); UMov r (ELow k (EBin Add x y))] | _ => None end);
      ("adc", fun args => match args with [d; x; y] => x <-- source x ; y <-- source y ; set d (EBin Add (EBin Add x y) (EB (CV fC))) | _ => None end);
      ("subs", fun args => match args with [d; x; y] => k <-- a64_width d ; x <-- source x ; y <-- source y ; r <-- register d ;
        Some [UFlag fZ (CEq k (EBin Sub x y) (EC 0)); UFlag fC (CNot (CLt k x y)); UMov r (ELow k (EBin Sub x y))] | _ => None end);
      ("sbc", fun args => match args with [d; x; y] => x <-- source x ; y <-- source y ; set d (EBin Sub (EBin Sub x y) (EB (CNot (CV fC)))) | _ => None end);
      ("neg", fun args => match args with [d; x] => x <-- source x ; set d (EUn Neg x) | _ => None end);
      ("mvn", fun args => match args with [d; x] => x <-- source x ; set d (EUn Not x) | _ => None end);
      ("mov", fun args => match args with [d; x] => x <-- source x ; set d x | _ => None end);
      ("uxtb", fun args => match args with [d; x] => x <-- source x ; set d (ELow 8 x) | _ => None end);
      ("uxth", fun args => match args with [d; x] => x <-- source x ; set d (ELow 16 x) | _ => None end);
      ("cmp", fun args => match args with [x; y] => k <-- a64_width x ; x <-- source x ; y <-- source y ; Some [UFlag fC (CNot (CLt k x y)); UFlag fZ (CEq k x y)] | _ => None end);
      ("ccmp", fun args => match args with [x; y; PNum 0; PEq] => k <-- a64_width x ; x <-- source x ; y <-- source y ;
        (* compare if the zero flag is set, otherwise clear the flags *)
        Some [UFlag fC (CAnd (CV fZ) (CNot (CLt k x y))); UFlag fZ (CAnd (CV fZ) (CEq k x y))] | _ => None end);
      ("cset", fun args => match args with [d; PEq] => set d (EB (CV fZ)) | _ => None end);
      ("b.ne", fun args => match args with [t] => taken (CNot (CV fZ)) t | _ => None end);
      ("cbnz", fun args => match args with [x; t] => k <-- a64_width x ; x <-- source x ; taken (CNot (CEq k x (EC 0))) t | _ => None end)]) args.

  (** *** PowerPC: 64-bit registers (on 32-bit processors the upper half does not exist) *)

  Definition ppc_ll : list (string * Z) := [("lbarx", 8); ("lharx", 16); ("lwarx", 32); ("ldarx", 64)].
  Definition ppc_sc : list (string * Z) := [("stbcx.", 8); ("sthcx.", 16); ("stwcx.", 32); ("stdcx.", 64)].
  Definition ppc_ld : list (string * Z) := [("lbz", 8); ("lhz", 16); ("lwz", 32); ("ld", 64)].
  Definition ppc_st : list (string * Z) := [("stb", 8); ("sth", 16); ("stw", 32); ("std", 64)].
  Definition ppc_alu : list (string * binop) := [("add", Add); ("sub", Sub); ("and", And); ("or", Or); ("xor", Xor)].

  Definition powerpc (op : string) (args : list opnd) : option (list uop) :=
    let set d e := r <-- register d ; Some [UMov r (ELow 64 e)] in
    run op (
      each ppc_ll (fun k args => match args with [d; m] => ll1 k d m | _ => None end) ++
      each ppc_sc (fun k args => match args with [v; m] => r <-- register v ; a <-- whole m k ; Some [USc a (ELow k (EV r)); UFlag fZ (CV fOk)] | _ => None end) ++
      each ppc_ld (fun k args => match args with [d; m] => r <-- register d ; a <-- whole m k ; Some [ULd a; UMov r (EV 0)] | _ => None end) ++
      each ppc_st (fun k args => match args with [v; m] => r <-- register v ; a <-- whole m k ; Some [USt a (ELow k (EV r))] | _ => None end) ++
      each ppc_alu (fun f args => match args with [d; x; y] => x <-- source x ; y <-- source y ; set d (EBin f x y) | _ => None end) ++ [
      ("nor", fun args => match args with [d; x; y] => x <-- source x ; y <-- source y ; set d (EUn Not (EBin Or x y)) | _ => None end);
      ("neg", fun args => match args with [d; x] => x <-- source x ; set d (EUn Neg x) | _ => None end);
      ("li", fun args => match args with [d; PNum z] => set d (EC z) | _ => None end);
      ("rlwinm", fun args => match args with [d; x; PNum 0; PNum m] => x <-- source x ; if m =? 255 then set d (ELow 8 x) else if m =? 65535 then set d (ELow 16 x) else None | _ => None end);
      ("extsb", fun args => match args with [d; x] => x <-- source x ; set d (ESx 8 x) | _ => None end);
      ("extsh", fun args => match args with [d; x] => x <-- source x ; set d (ESx 16 x) | _ => None end);
      ("cmpw", fun args => match args with [x; y] => x <-- source x ; y <-- source y ; Some [UFlag fZ (CEq 32 x y)] | _ => None end);
      ("cmpd", fun args => match args with [x; y] => x <-- source x ; y <-- source y ; Some [UFlag fZ (CEq 64 x y)] | _ => None end);
      ("bne-", fun args => match args with [t] => taken (CNot (CV fZ)) t | _ => None end);
      ("sync", fun args => match args with [] => Some [] | _ => None end);
      ("isync", fun args => match args with [] => Some [] | _ => None end)]) args.

  (** *** Alpha: 64-bit registers, 32-bit values are kept sign-extended *)

  Definition alpha (op : string) (args : list opnd) : option (list uop) :=
    let set d e := r <-- register d ; Some [UMov r (ELow 64 e)] in
    run op [
      ("mov", fun args => match args with [x; d] => x <-- source x ; r <-- register d ; Some [UMov r x] | _ => None end);
      ("ldl_l", fun args => match args with [d; m] => r <-- register d ; a <-- whole m 32 ; Some [ULk a; UMov r (ESx 32 (EV 0))] | _ => None end);
      ("ldq_l", fun args => match args with [d; m] => r <-- register d ; a <-- whole m 64 ; Some [ULk a; UMov r (EV 0)] | _ => None end);
      (* the source register becomes 1 if the store was done and 0 if not *)
      ("stl_c", fun args => match args with [v; m] => r <-- register v ; a <-- whole m 32 ; Some [USc a (ELow 32 (EV r)); UMov r (EB (CV fOk))] | _ => None end);
      ("stq_c", fun args => match args with [v; m] => r <-- register v ; a <-- whole m 64 ; Some [USc a (ELow 64 (EV r)); UMov r (EB (CV fOk))] | _ => None end);
      ("addl", fun args => match args with [x; y; d] => x <-- source x ; y <-- source y ; r <-- register d ; Some [UMov r (ESx 32 (EBin Add x y))] | _ => None end);
      ("subl", fun args => match args with [x; y; d] => x <-- source x ; y <-- source y ; r <-- register d ; Some [UMov r (ESx 32 (EBin Sub x y))] | _ => None end);
      ("addq", fun args => match args with [x; y; d] => x <-- source x ; y <-- source y ; set d (EBin Add x y) | _ => None end);
      ("subq", fun args => match args with [x; y; d] => x <-- source x ; y <-- source y ; set d (EBin Sub x y) | _ => None end);
      ("and", fun args => match args with [x; y; d] => x <-- source x ; y <-- source y ; set d (EBin And x y) | _ => None end);
      ("bis", fun args => match args with [x; y; d] => x <-- source x ; y <-- source y ; set d (EBin Or x y) | _ => None end);
      ("xor", fun args => match args with [x; y; d] => x <-- source x ; y <-- source y ; set d (EBin Xor x y) | _ => None end);
      (* keep byte 0, or bytes 0 and 1 *)
      ("zapnot", fun args => match args with [x; PNum 1; d] => x <-- source x ; set d (ELow 8 x) | [x; PNum 3; d] => x <-- source x ; set d (ELow 16 x) | _ => None end);
      ("sextb", fun args => match args with [x; d] => x <-- source x ; set d (ESx 8 x) | _ => None end);
      ("sextw", fun args => match args with [x; d] => x <-- source x ; set d (ESx 16 x) | _ => None end);
      ("cmpeq", fun args => match args with [x; y; d] => x <-- source x ; y <-- source y ; r <-- register d ; Some [UMov r (EB (CEq 64 x y))] | _ => None end);
      ("beq", fun args => match args with [x; t] => x <-- source x ; taken (CEq 64 x (EC 0)) t | _ => None end);
      ("br", fun args => match args with [t] => taken CT t | _ => None end);
      ("mb", fun args => match args with [] => Some [] | _ => None end)] args.

  (** *** SPARC *)

  Definition sparc (op : string) (args : list opnd) : option (list uop) :=
    run op [
      ("cas", fun args => match args with [m; e; d] => a <-- whole m 32 ; x <-- register e ; r <-- register d ;
        Some [UCs a (ELow 32 (EV x)) (ELow 32 (EV r)); UMov r (EV 0)] | _ => None end);
      ("casx", fun args => match args with [m; e; d] => a <-- whole m 64 ; x <-- register e ; r <-- register d ;
        Some [UCs a (ELow 64 (EV x)) (ELow 64 (EV r)); UMov r (EV 0)] | _ => None end);
      ("swap", fun args => match args with [m; d] => a <-- whole m 32 ; r <-- register d ; Some [UXc a (ELow 32 (EV r)); UMov r (EV 0)] | _ => None end);
      ("membar", fun args => Some [])] args.

  (** *** x86 (AT&T syntax: the destination is last) *)

  Definition eax : nat := 1%nat.
  Definition ebx : nat := 2%nat.
  Definition ecx : nat := 3%nat.
  Definition edx : nat := 4%nat.
  Definition machine_registers : list (string * (nat * Z)) :=
    [("al", (1%nat, 8)); ("ax", (1%nat, 16)); ("eax", (1%nat, 32)); ("rax", (1%nat, 64));
     ("ebx", (2%nat, 32)); ("rbx", (2%nat, 64)); ("ecx", (3%nat, 32)); ("rcx", (3%nat, 64));
     ("edx", (4%nat, 32)); ("rdx", (4%nat, 64)); ("esi", (5%nat, 32)); ("edi", (6%nat, 32))].
  Definition xreg (k : Z) (o : opnd) : option nat :=
    match o with
    | PMach n => '(r, z) <-- find n machine_registers ; if z =? k then Some r else None
    | _ => register o
    end.
  Definition xsource (k : Z) (o : opnd) : option expr :=
    match o with PNum z => Some (EC z) | _ => r <-- xreg k o ; Some (EV r) end.
  (** a register write of 8 or 16 bits leaves the other bits, one of 32 bits clears the upper half *)
  Definition xset (k : Z) (r : nat) (e : expr) : uop :=
    UMov r (if k <? 32 then EIns k (EV r) e else ELow k e).
  Definition is_vector (o : opnd) : bool :=
    match o with PReg i _ => match expr_at i with Some x => has "x" (o_con x) | None => false end | _ => false end.

  Definition sizes : list (string * Z) := [("b", 8); ("w", 16); ("l", 32); ("q", 64)].
  Definition sized {A} (l : list (string * A)) : list (string * (A * Z)) :=
    flat_map (fun '(n, x) => map (fun '(s, k) => ((n ++ s)%string, (x, k))) sizes) l.
  Inductive x86op := XAlu (f : binop) | XUn (u : unop) | XIncDec (f : binop) | XAdd | XChg | XCmp | XMov | XBit (k : bitop).
  Definition x86_ops : list (string * (x86op * Z)) :=
    sized [("add", XAlu Add); ("sub", XAlu Sub); ("and", XAlu And); ("or", XAlu Or); ("xor", XAlu Xor); ("neg", XUn Neg); ("not", XUn Not);
           ("inc", XIncDec Add); ("dec", XIncDec Sub); ("xadd", XAdd); ("xchg", XChg); ("cmpxchg", XCmp); ("mov", XMov);
           ("bts", XBit BSet); ("btr", XBit BReset); ("btc", XBit BCompl)] ++
    [("mov", (XMov, if w =? 64 then 64 else 32))].
  Definition vector_moves : list (string * Z) := [("vmovq", 64); ("movq", 64); ("movlps", 64); ("vmovdqa", 128)].

  (** flags of an arithmetic instruction on [x] and [y] of [k] bits *)
  Definition xflags (f : binop) (k : Z) (x y : expr) : list uop :=
    [UFlag fZ (CEq k (EBin f x y) (EC 0));
     UFlag fC (match f with Add => CCar k x y | Sub => CLt k x y | _ => CF end)].

  (** a move into a general register: from a half of the storage, or from a register or constant *)
  Definition xmov (k : Z) (x y : opnd) : option (list uop) :=
    r <-- xreg k y ;
    match memory x with
    | Some (m, hi) => if k =? w / 2 then Some [UHf m hi; xset k r (EV 0)] else None
    | None => e <-- xsource k x ; Some [xset k r e]
    end.

  Definition x86 (lock : bool) (op : string) (args : list opnd) : option (list uop) :=
    let locked (l : list uop) := if lock then Some l else None in
    run op (
      each vector_moves (fun k args => match args with
        | [x; y] =>
            if is_vector y then
              a <-- whole x k ; r <-- register y ;
              Some [ULd a; UMov r (if String.eqb op "movlps" then EIns 64 (EV r) (EV 0) else EV 0)]
            else if is_vector x then a <-- whole y k ; r <-- register x ; Some [USt a (ELow k (EV r))]
            else if String.eqb op "movq" then xmov 64 x y
            else None
        | _ => None end) ++
      each x86_ops (fun '(x, k) args =>
        match x with
        | XMov => match args with [x; y] => xmov k x y | _ => None end
        | XAlu f => match args with [x; y] =>
            e <-- xsource k x ;
            match memory y with
            | Some _ => a <-- whole y k ; locked (URm a f (ELow k e) :: xflags f k (EV 0) e)
            | None => r <-- xreg k y ; Some (xflags f k (EV r) e ++ [xset k r (EBin f (EV r) e)])
            end | _ => None end
        | XIncDec f => match args with [y] => (* the carry flag stays *)
            a <-- whole y k ; locked [URm a f (EC 1); UFlag fZ (CEq k (EBin f (EV 0) (EC 1)) (EC 0))] | _ => None end
        | XUn Neg => match args with [y] =>
            match memory y with
            | Some _ => a <-- whole y k ; locked [URu a Neg; UFlag fZ (CEq k (EV 0) (EC 0)); UFlag fC (CNot (CEq k (EV 0) (EC 0)))]
            | None => r <-- xreg k y ; Some [UFlag fZ (CEq k (EV r) (EC 0)); UFlag fC (CNot (CEq k (EV r) (EC 0))); xset k r (EUn Neg (EV r))]
            end | _ => None end
        | XUn Not => match args with [y] =>
            match memory y with
            | Some _ => a <-- whole y k ; locked [URu a Not]
            | None => r <-- xreg k y ; Some [xset k r (EUn Not (EV r))]
            end | _ => None end
        | XAdd => match args with [x; y] =>
            r <-- xreg k x ; a <-- whole y k ;
            locked (URm a Add (ELow k (EV r)) :: xflags Add k (EV 0) (EV r) ++ [xset k r (EV 0)]) | _ => None end
        | XChg => match args with [x; y] =>
            match memory y with
            | Some _ => r <-- xreg k x ; a <-- whole y k ; Some [UXc a (ELow k (EV r)); xset k r (EV 0)]
            | None => (* "xchgl %%ebx, %%esi" (D/core_arch_ops_gcc_x86.hpp 503-800) is 32-bit code, where registers have 32 bits *)
                r <-- xreg k x ; q <-- xreg k y ; Some [UMov 0 (EV r); UMov r (EV q); UMov q (EV 0)]
            end | _ => None end
        | XCmp => match args with [x; y] =>
            r <-- xreg k x ; a <-- whole y k ;
            locked [UCs a (ELow k (EV eax)) (ELow k (EV r)); UFlag fC (CLt k (EV eax) (EV 0)); UFlag fZ (CV fOk); xset k eax (EV 0)] | _ => None end
        | XBit f => match args with [x; y] =>
            (* the storage's bit, if the bit number is within it: other numbers reach other memory *)
            e <-- xsource k x ; a <-- whole y k ;
            locked (UBelow (ELow k e) k :: match f with
                    | BSet => [URm a Or (EPow (ELow k e))]
                    | BReset => [URm a And (EUn Not (EPow (ELow k e)))]
                    | BCompl => [URm a Xor (EPow (ELow k e))] end ++ [UFlag fC (CBit (EV 0) (ELow k e))]) | _ => None end
        end) ++ [
      ("cmpxchg8b", fun args => match args with [y] => a <-- whole y 64 ;
        locked [UCs a (EJoin 32 (EV eax) (ELow 32 (EV edx))) (EJoin 32 (EV ebx) (ELow 32 (EV ecx))); UFlag fZ (CV fOk);
                UMov eax (ELow 32 (EV 0)); UMov edx (ELow 32 (EHi 32 (EV 0)))] | _ => None end);
      ("cmpxchg16b", fun args => match args with [y] => a <-- whole y 128 ;
        locked [UCs a (EJoin 64 (EV eax) (ELow 64 (EV edx))) (EJoin 64 (EV ebx) (ELow 64 (EV ecx))); UFlag fZ (CV fOk);
                UMov eax (ELow 64 (EV 0)); UMov edx (ELow 64 (EHi 64 (EV 0)))] | _ => None end);
      ("movzbl", fun args => match args with [x; y] => e <-- xsource 8 x ; r <-- xreg 32 y ; Some [UMov r (ELow 8 e)] | _ => None end);
      ("movzwl", fun args => match args with [x; y] => e <-- xsource 16 x ; r <-- xreg 32 y ; Some [UMov r (ELow 16 e)] | _ => None end);
      (* 64-bit integers through the x87 stack, which is left as it was *)
      ("fildll", fun args => match args with [x] => match memory x with Some _ => a <-- whole x 64 ; Some [ULd a] | None => r <-- register x ; Some [UMov 0 (EV r)] end | _ => None end);
      ("fistpll", fun args => match args with [y] => match memory y with Some _ => a <-- whole y 64 ; Some [USt a (ELow 64 (EV 0))] | None => r <-- register y ; Some [UMov r (ELow 64 (EV 0))] end | _ => None end);
      ("xorps", fun args => match args with [x; y] => e <-- source x ; r <-- register y ; Some [UMov r (ELow 128 (EBin Xor (EV r) e))] | _ => None end);
      ("sete", fun args => match args with [y] => r <-- register y ; Some [xset 8 r (EB (CV fZ))] | _ => None end);
      ("setnz", fun args => match args with [y] => r <-- register y ; Some [xset 8 r (EB (CNot (CV fZ)))] | _ => None end);
      ("setc", fun args => match args with [y] => r <-- register y ; Some [xset 8 r (EB (CV fC))] | _ => None end);
      ("jne", fun args => match args with [t] => taken (CNot (CV fZ)) t | _ => None end)]) args.

  Definition decode (lock : bool) (op : string) (args : list opnd) : option (list uop) :=
    if String.eqb op "" then Some []
    else if String.eqb op ".align" then Some []
    else if lock && match b_arch b with X86 => false | _ => true end then None
    else match b_arch b with
    | Alpha => alpha op args
    | PowerPC => powerpc op args
    | Arm | AArch32 => arm op args
    | AArch64 => aarch64 op args
    | Sparc => sparc op args
    | X86 => x86 lock op args
    end.

  (** ** Assembly

      Text between ".subsection n" and ".previous" is placed after the rest.  A jump to "1b" goes to the nearest label 1
      at or before the line, one to "1f" to the nearest one after it. *)
  Definition lines : list line := map parse_line (b_text b).

  Fixpoint sections (sub : bool) (ls : list line) : list bool :=
    match ls with
    | [] => []
    | l :: ls =>
        let sub' := if String.eqb (l_op l) ".subsection" then true else if String.eqb (l_op l) ".previous" then false else sub in
        sub' :: sections sub' ls
    end.
  Definition line_code (l : line) : option (list uop) :=
    if mem (l_op l) [".subsection"; ".previous"] then Some []
    else if mem (l_op l) [".align"; "membar"] then Some []
    else args <-- all_some (map (parse_operand (map o_name (operands b))) (l_args l)) ; decode (l_lock l) (l_op l) args.

  (** the lines that are placed in section [sub], with their numbers and code *)
  Fixpoint placed (sub : bool) (n : nat) (secs : list bool) (codes : list (list uop)) : list (nat * list uop) :=
    match secs, codes with
    | s :: secs, c :: codes => if Bool.eqb s sub then (n, c) :: placed sub (S n) secs codes else placed sub (S n) secs codes
    | _, _ => []
    end.
  Fixpoint position (n : nat) (pl : list (nat * list uop)) : nat :=
    match pl with
    | [] => 0
    | (m, c) :: pl => if Nat.eqb m n then 0 else List.length c + position n pl
    end.

  Fixpoint label_after (n cur k : nat) (ls : list line) : option nat := (* the first line after [cur] with label [n] *)
    match ls with
    | [] => None
    | l :: ls => if match l_label l with Some m => Nat.eqb m n | None => false end && Nat.ltb cur k then Some k
                 else label_after n cur (S k) ls
    end.
  Fixpoint label_before (n cur k : nat) (ls : list line) (best : option nat) : option nat :=
    match ls with
    | [] => best
    | l :: ls => label_before n cur (S k) ls
                   (if match l_label l with Some m => Nat.eqb m n | None => false end && Nat.leb k cur then Some k else best)
    end.

  Section Resolve.
    Variable pl : list (nat * list uop).
    (** [here] is the position of the micro-operation, [cur] the line *)
    Definition resolve (cur here : nat) (u : uop) : option uop :=
      match u with
      | UJmp c (TLab n f) =>
          l <-- (if f then label_after n cur 0 lines else label_before n cur 0 lines None) ;
          Some (UJmp c (TAbs (position l pl)))
      | UJmp c (TOff z) => (* in bytes, four for each instruction; every line is one instruction *)
          let l := Z.of_nat cur + z / 4 in
          if (z mod 4 =? 0) && (0 <=? l) && (l <=? Z.of_nat (List.length lines))
          then Some (UJmp c (TAbs (position (Z.to_nat l) pl))) else None
      | UJmp c (TSkip n) => Some (UJmp c (TAbs (here + 1 + n)%nat))
      | u => Some u
      end.
    Fixpoint resolve_line (cur here : nat) (c : list uop) : list (option uop) :=
      match c with [] => [] | u :: c => resolve cur here u :: resolve_line cur (S here) c end.
    Fixpoint resolve_all (here : nat) (p : list (nat * list uop)) : list (option uop) :=
      match p with
      | [] => []
      | (n, c) :: p => resolve_line n here c ++ resolve_all (here + List.length c)%nat p
      end.
  End Resolve.

  (** the code of a block: the main lines, the end of the block, the lines of the subsection *)
  Definition assemble : option (list uop) :=
    codes <-- all_some (map line_code lines) ;
    let secs := sections false lines in
    let pl := placed false 0 secs codes ++ [(List.length lines, [UExit])] ++ placed true 0 secs codes in
    all_some (resolve_all pl 0 pl).
End Decode.

(** ** Machine *)

(** registers, the answer of the last access, flags, the reservation of a load-linked *)
Record cst := St { g : nat -> Z; lat : Z; fl : nat -> bool; tk : option Z }.

Section Machine.
  Variables (code : list uop) (alloc : nat -> nat) (w base : Z) (a : addr).

  Definition rd (s : cst) (l : nat) : Z := if Nat.eqb l 0 then lat s else g s (alloc l).
  Definition wr (s : cst) (l : nat) (v : Z) : cst :=
    if Nat.eqb l 0 then St (g s) v (fl s) (tk s)
    else St (fun p => if Nat.eqb p (alloc l) then v else g s p) (lat s) (fl s) (tk s).
  Definition wrf (s : cst) (f : nat) (c : bool) : cst :=
    St (g s) (lat s) (fun n => if Nat.eqb n f then c else fl s n) (tk s).
  Definition wrl (s : cst) (v : Z) : cst := St (g s) v (fl s) (tk s).
  Definition ev (s : cst) (e : expr) : Z := eval (rd s) (fl s) e.
  Definition cev (s : cst) (c : cnd) : bool := ceval (rd s) (fl s) c.

  (** one micro-operation; [inr None] is a fault: the address register no longer holds the address of the object, an
      unpredictable choice of registers, a bit outside the object, a store-conditional without load-linked, a jump out
      of the block *)
  Open Scope prog_scope.
  Definition uexec (u : uop) (pc : nat) (s : cst) : wprog ((nat * cst) + option cst) :=
    let next s := Ret (inl (S pc, s)) in
    let fault := Ret (inr None) in
    let at_ m (p : wprog ((nat * cst) + option cst)) := if rd s m =? base then p else fault in
    match u with
    | UMov d e => next (wr s d (ev s e))
    | UFlag f c => next (wrf s f (cev s c))
    | UJmp c (TAbs t) => Ret (inl (if cev s c then t else S pc, s))
    | UJmp _ _ => fault
    | UExit => Ret (inr (Some s))
    | UDiff x y => if Nat.eqb (alloc x) (alloc y) then fault else next s
    | UBelow e n => if (0 <=? ev s e) && (ev s e <? n) then next s else fault
    | ULd m => at_ m (x <- ld a ;; next (wrl s x))
    | UHf m hi => at_ m (x <- ldhalf a w hi ;; next (wrl s x))
    | USt m e => at_ m (st a (ev s e) ;;; next s)
    | UXc m e => at_ m (x <- xchg a (ev s e) ;; next (wrl s x))
    | URm m b e => at_ m (x <- rmw a w (Bin b (ev s e)) ;; next (wrl s x))
    | URu m u => at_ m (x <- rmw a w (Un u) ;; next (wrl s x))
    | UCs m e d => at_ m ('(b, x) <- cas a (ev s e) (ev s d) ;; next (wrf (wrl s x) fOk b))
    | ULk m => at_ m ('(x, t) <- ll a ;; next (St (g s) x (fl s) (Some t)))
    | ULkH m hi => at_ m ('(x, t) <- llhalf a w hi ;;
                          next (St (g s) x (fl s) (if hi then tk s else Some t)))
    | USc m e => at_ m (match tk s with
                        | Some t => b <- sc a t (ev s e) ;; next (wrf (St (g s) (lat s) (fl s) None) fOk b)
                        | None => fault end)
    end.

  Definition body (x : nat * cst) : wprog ((nat * cst) + option cst) :=
    match nth_error code (fst x) with Some u => uexec u (fst x) (snd x) | None => Ret (inr None) end.
  Definition asm_prog (s : cst) : wprog (option cst) := loop (0%nat, s) body.
End Machine.
