(** * The text of assembler blocks: GCC extended asm statements and the lines of their assembler text.

    A block is the text of an asm statement of the library, copied by tools/extract_asm.py after macro expansion, with
    its operands and clobbers.  This file splits the text into labels, mnemonics and operands. *)
From Coq Require Import ZArith Arith List Bool String Ascii.
Import ListNotations.
Open Scope string_scope.
Open Scope Z_scope.

Inductive arch := Alpha | PowerPC | Arm | AArch32 | AArch64 | Sparc | X86.

(** an operand: its symbolic name, constraint, C++ expression and the type that the expression's variable has *)
Record operand := Opd { o_name : string; o_con : string; o_expr : string; o_type : string }.

Record block := Blk {
  b_arch : arch;
  b_file : string; b_line : Z;         (* where in include/boost/atomic/detail *)
  b_func : string;                     (* the member function *)
  b_bits : Z;                          (* size of the storage in bits *)
  b_value : Z; b_signed : bool;        (* size of the value in bits (less for 1 and 2 byte values in 4 byte storage), its sign *)
  b_big : bool;                        (* big endian *)
  b_text : list string;
  b_outs : list operand; b_ins : list operand; b_clob : list string;
  (* if the statement is in a macro that BOOST_ATOMIC_DETAIL_AARCH{32,64}_MO_SWITCH uses for each memory order: whether its
     arguments for this copy are those of an acquiring load and of a releasing store *)
  b_mo : option (bool * bool) }.

Definition operands (b : block) : list operand := b_outs b ++ b_ins b.

(** ** Strings *)

Fixpoint mem (x : string) (l : list string) : bool :=
  match l with [] => false | y :: l => String.eqb x y || mem x l end.
Fixpoint find {A} (x : string) (l : list (string * A)) : option A :=
  match l with [] => None | (y, v) :: l => if String.eqb x y then Some v else find x l end.
Fixpoint index_from (n : nat) (x : string) (l : list string) : option nat :=
  match l with [] => None | y :: l => if String.eqb x y then Some n else index_from (S n) x l end.
Fixpoint has (c : ascii) (s : string) : bool :=
  match s with "" => false | String d r => Ascii.eqb c d || has c r end.

Definition flush (cur : string) : list string := match cur with "" => [] | _ => [cur] end.
Definition separator (c : ascii) : bool := Ascii.eqb c " " || Ascii.eqb c "," || Ascii.eqb c "009".
(** the words of a line, separated by blanks and commas *)
Fixpoint words_from (s cur : string) : list string :=
  match s with
  | "" => flush cur
  | String c r => if separator c then (flush cur ++ words_from r "")%list else words_from r (cur ++ String c "")
  end.
Definition words (s : string) : list string := words_from s "".

Definition digit (c : ascii) : option Z :=
  let n := Z.of_nat (nat_of_ascii c) in if (48 <=? n) && (n <=? 57) then Some (n - 48) else None.
Definition hexdigit (c : ascii) : option Z :=
  let n := Z.of_nat (nat_of_ascii c) in if (97 <=? n) && (n <=? 102) then Some (n - 87) else digit c.
Fixpoint number_from (dig : ascii -> option Z) (base : Z) (s : string) (acc : Z) : option Z :=
  match s with
  | "" => Some acc
  | String c r => match dig c with Some d => number_from dig base r (base * acc + d) | None => None end
  end.
Definition number (s : string) : option Z :=
  match s with
  | "" => None
  | String "0" (String "x" r) => number_from hexdigit 16 r 0
  | _ => number_from digit 10 s 0
  end.

(** the part of a string before the first occurrence of a character, and the rest after it *)
Fixpoint cut (c : ascii) (s : string) : option (string * string) :=
  match s with
  | "" => None
  | String d r => if Ascii.eqb c d then Some ("", r)
                  else match cut c r with Some (x, y) => Some (String d x, y) | None => None end
  end.

(** ** Operands in the text *)

Inductive opnd :=
| PReg (i : nat) (md : option ascii)  (* %2  %[x]  %w[x]: operand i, with a modifier letter *)
| PInd (i : nat) (off : Z)            (* (%[x])  4(%[x])  [%1]: memory at operand i *)
| PMach (r : string)                  (* %%eax *)
| PNum (z : Z)                        (* 1  #1  0xff *)
| PLab (n : nat) (forward : bool)     (* 1b  2f *)
| POff (z : Z)                        (* $+8  $-8 *)
| PEq                                 (* eq: the condition *)
| PZero                               (* xzr: the register that is always zero *)
| PWord (s : string).

Definition reference_tail (names : list string) (s : string) : option nat :=
  match s with
  | String "[" r => match cut "]" r with Some (n, "") => index_from 0 n names | _ => None end
  | _ => match number s with Some z => Some (Z.to_nat z) | None => None end
  end.
(** what follows the percent sign *)
Definition reference (names : list string) (s : string) : option opnd :=
  match s with
  | "" => None
  | String c r =>
      match reference_tail names s with
      | Some i => Some (PReg i None)
      | None => match reference_tail names r with Some i => Some (PReg i (Some c)) | None => None end
      end
  end.
Definition indirect (names : list string) (off : Z) (s : string) : option opnd :=
  match s with
  | String "%" r => match reference names r with Some (PReg i None) => Some (PInd i off) | _ => None end
  | _ => None
  end.
Definition parse_operand (names : list string) (s : string) : option opnd :=
  if String.eqb s "eq" then Some PEq else if String.eqb s "xzr" then Some PZero else
  match s with
  | "" => None
  | String "%" (String "%" r) => Some (PMach r)
  | String "%" r => reference names r
  | String "#" r => match number r with Some z => Some (PNum z) | None => Some (PWord s) end
  | String "[" r => match cut "]" r with Some (x, "") => indirect names 0 x | _ => None end
  | String "$" (String "+" r) => match number r with Some z => Some (POff z) | None => None end
  | String "$" (String "-" r) => match number r with Some z => Some (POff (- z)) | None => None end
  | _ =>
      match number s with
      | Some z => Some (PNum z)
      | None =>
          match cut "b" s, cut "f" s with
          | Some (n, ""), None => match number n with Some z => Some (PLab (Z.to_nat z) false) | None => Some (PWord s) end
          | None, Some (n, "") => match number n with Some z => Some (PLab (Z.to_nat z) true) | None => Some (PWord s) end
          | _, _ =>
              match cut "(" s with
              | Some (off, r) =>
                  match cut ")" r with
                  | Some (x, "") =>
                      match off with
                      | "" => indirect names 0 x
                      | _ => match number off with Some z => indirect names z x | None => None end
                      end
                  | _ => None
                  end
              | None => Some (PWord s)
              end
          end
      end
  end.

(** ** Lines *)

Record line := Line { l_label : option nat; l_lock : bool; l_op : string; l_args : list string }.
Definition label (w : string) : option nat :=
  match cut ":" w with Some (n, "") => match number n with Some z => Some (Z.to_nat z) | None => None end | _ => None end.
Definition parse_line (s : string) : line :=
  let '(lb, ws) := match words s with w :: r => match label w with Some n => (Some n, r) | None => (None, w :: r) end | [] => (None, []) end in
  let '(lk, ws) := match ws with x :: r => if String.eqb x "lock;" then (true, r) else (false, ws) | [] => (false, ws) end in
  match ws with [] => Line lb lk "" [] | op :: args => Line lb lk op args end.

Fixpoint all_some {A} (l : list (option A)) : option (list A) :=
  match l with
  | [] => Some []
  | Some x :: l => match all_some l with Some r => Some (x :: r) | None => None end
  | None :: _ => None
  end.
